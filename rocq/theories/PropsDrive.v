(** C100: a drive in real numbers, stored in f32, is mapped. *)
From Coq Require Import ZArith List Bool Reals Permutation.
From Flocq Require Import Core BinarySingleNaN.
From Verif Require Import Base F32 Arith Geom NdArray GridMap RayCaster NoiseModel Spec SpecMap SpecNoise SpecOdds SpecBack SpecMeet SpecNear SpecWorld SpecWall SpecFull SpecDrive OddsProofs DriveProofs ExamplesNoise ExamplesMeet ExamplesWorld ExamplesWall ExamplesTour ExamplesFull ExamplesDrive.
Open Scope Z_scope.

(** No integration panics, and the map holds what the exact scans say.  (For the hypotheses see C100_walls_example.) *)
Theorem C100_mapped : forall d r t m, map_range d r t -> t <= 2 ^ 13 -> (bpow radix2 (-30) <= real r <= bpow radix2 30)%R ->
  fltb f0 (max_range m) = true -> finite (max_range m) -> (real (max_range m) <= 1048576 * real r)%R ->
  forall fuel S fs, (3072 <= fuel)%nat -> driven d (max_range m) r S fs -> exists o cb, map_drive d m r t fuel fs = Ret o /\ covers_cells d r t (om_grid o) cb /\
  forall w, length w = d -> exists vs, Forall2 (verdict d (real (max_range m)) (real r) w) S vs /\ (forall vs', Forall2 (verdict d (real (max_range m)) (real r) w) S vs' -> vs' = vs) /\
    world_value (om_grid o) cb f0 w (fold_left (observe m) vs f0) /\ (Exists (fun v => v <> None) vs -> in_box cb w).
Proof. exact drive_values. Qed.
Print Assumptions C100_mapped.

(** In a world with walls: the cells reported occupied are the walls that were hit. *)
Theorem C100_walls : forall d r t m, map_range d r t -> t <= 2 ^ 13 -> (bpow radix2 (-30) <= real r <= bpow radix2 30)%R ->
  fltb f0 (max_range m) = true -> finite (max_range m) -> (real (max_range m) <= 1048576 * real r)%R ->
  signs_ok m -> fle f0 (occupied_threshold_logodds m) -> fltb (occupied_threshold_logodds m) (evidence m f0 true) = true ->
  forall fuel S fs wall, (3072 <= fuel)%nat -> driven d (max_range m) r S fs -> Forall (sees d (real (max_range m)) (real r) wall) S ->
  exists o cb, map_drive d m r t fuel fs = Ret o /\ covers_cells d r t (om_grid o) cb /\ forall w, length w = d ->
    ((exists s, In s S /\ scan_hits d (real (max_range m)) (real r) s w) -> wall w /\ in_box cb w) /\
    (in_box cb w -> exists b, om_occupied o (map2 Z.sub w (cmin cb)) = Ret b /\ (b = true <-> exists s, In s S /\ scan_hits d (real (max_range m)) (real r) s w)).
Proof. exact drive_walls. Qed.
Print Assumptions C100_walls.

(** The scans of C96 and C97, points of which are not f32s. *)
Example C100_walls_example : (map_range 3 f1 2 /\ 2 <= 2 ^ 13 /\ (bpow radix2 (-30) <= real f1 <= bpow radix2 30)%R) /\
  (fltb f0 (max_range sm_lidar) = true /\ finite (max_range sm_lidar) /\ (real (max_range sm_lidar) <= 1048576 * real f1)%R) /\
  (signs_ok sm_lidar /\ fle f0 (occupied_threshold_logodds sm_lidar) /\ fltb (occupied_threshold_logodds sm_lidar) (evidence sm_lidar f0 true) = true) /\
  driven 3 (max_range sm_lidar) f1 [wd_1; wd_2] dr_frames /\ Forall (sees 3 (real (max_range sm_lidar)) (real f1) wl_walls) [wd_1; wd_2] /\
  exists o, map_drive 3 sm_lidar f1 2 3072 dr_frames = Ret o /\ gm_get (om_grid o) [4; 0; 1] = Ret (f32_lit 85 100) /\ gm_get (om_grid o) [2; 0; 0] = Ret (f32_lit (-8) 10).
Proof. exact dr_example. Qed.

(** Without a length limit: the map of the exact scans with every beam arriving.  (For the hypotheses see C100_unlimited_walls_example.) *)
Theorem C100_unlimited : forall d r t m, map_range d r t -> t <= 2 ^ 13 -> (bpow radix2 (-30) <= real r <= bpow radix2 30)%R -> fltb f0 (max_range m) = false ->
  forall M fuel S fs, (3072 <= fuel)%nat -> driven d M r S fs -> exists o cb, map_drive d m r t fuel fs = Ret o /\ covers_cells d r t (om_grid o) cb /\
  forall w, length w = d -> exists vs, Forall2 (full_verdict d (real r) w) S vs /\ (forall vs', Forall2 (full_verdict d (real r) w) S vs' -> vs' = vs) /\
    world_value (om_grid o) cb f0 w (fold_left (observe m) vs f0) /\ (Exists (fun v => v <> None) vs -> in_box cb w).
Proof. exact drive_unlimited. Qed.
Print Assumptions C100_unlimited.

Theorem C100_unlimited_walls : forall d r t m, map_range d r t -> t <= 2 ^ 13 -> (bpow radix2 (-30) <= real r <= bpow radix2 30)%R -> fltb f0 (max_range m) = false ->
  signs_ok m -> fle f0 (occupied_threshold_logodds m) -> fltb (occupied_threshold_logodds m) (evidence m f0 true) = true ->
  forall M fuel S fs wall, (3072 <= fuel)%nat -> driven d M r S fs -> Forall (full_sees d (real r) wall) S ->
  exists o cb, map_drive d m r t fuel fs = Ret o /\ covers_cells d r t (om_grid o) cb /\ forall w, length w = d ->
    ((exists s, In s S /\ full_hits d (real r) s w) -> wall w /\ in_box cb w) /\
    (in_box cb w -> exists b, om_occupied o (map2 Z.sub w (cmin cb)) = Ret b /\ (b = true <-> exists s, In s S /\ full_hits d (real r) s w)).
Proof. exact drive_unlimited_walls. Qed.
Print Assumptions C100_unlimited_walls.

(** The same scans; now the far wall is hit too, at [6; 0; 0] of the map. *)
Example C100_unlimited_walls_example : (map_range 3 f1 2 /\ 2 <= 2 ^ 13 /\ (bpow radix2 (-30) <= real f1 <= bpow radix2 30)%R) /\ fltb f0 (max_range fu_lidar) = false /\
  (signs_ok fu_lidar /\ fle f0 (occupied_threshold_logodds fu_lidar) /\ fltb (occupied_threshold_logodds fu_lidar) (evidence fu_lidar f0 true) = true) /\
  driven 3 (max_range sm_lidar) f1 [wd_1; wd_2] dr_frames /\ Forall (full_sees 3 (real f1) wl_walls) [wd_1; wd_2] /\
  exists o, map_drive 3 fu_lidar f1 2 3072 dr_frames = Ret o /\ gm_get (om_grid o) [6; 0; 0] = Ret (f32_lit 85 100) /\ gm_get (om_grid o) [5; 0; 0] = Ret (f32_lit (-4) 10).
Proof. exact dr_unlimited. Qed.

(** Every scan in reach can be stored. *)
Theorem C100_stored : forall d r, (bpow radix2 (-30) <= real r <= bpow radix2 30)%R -> forall M S, Forall (in_reach d M (real r)) S -> exists frames, Forall2 (stored d) S frames.
Proof. exact drive_stored. Qed.
Print Assumptions C100_stored.

Example C100_stored_example : (bpow radix2 (-30) <= real f1 <= bpow radix2 30)%R /\ Forall (in_reach 3 (11 / 4) (real f1)) [wd_1; wd_2].
Proof. exact dr_storable. Qed.

(** The distance to borders is needed: a scan can be stored although f32 puts its point into the next cell, and then the map shows a hit there and none where the point is. *)
Theorem C100_rounding_refuted : exists d r t m fuel s f o cb w w', map_range d r t /\ fltb f0 (max_range m) = false /\ (signs_ok m /\ fle f0 (occupied_threshold_logodds m) /\ fltb (occupied_threshold_logodds m) (evidence m f0 true) = true) /\
  stored d s f /\ map_drive d m r t fuel [(f, (as_is, as_is))] = Ret o /\ covers_cells d r t (om_grid o) cb /\ in_box cb w /\ in_box cb w' /\
  (forall v, full_hits d (real r) s v <-> v = w) /\ w' <> w /\ om_occupied o (map2 Z.sub w (cmin cb)) = Ret false /\ om_occupied o (map2 Z.sub w' (cmin cb)) = Ret true.
Proof. exact dr_rounding. Qed.
Print Assumptions C100_rounding_refuted.

(** With the default model, resolution and tile size. *)
Theorem C100_default : forall f, ln_accurate f -> exists m, lidar_default f = Ret m /\ max_range m = DEFAULT_MAX_RANGE /\
  forall d fuel S fs wall, (d = 2 \/ d = 3)%nat -> (3072 <= fuel)%nat -> driven d DEFAULT_MAX_RANGE DEFAULT_RESOLUTION S fs ->
  Forall (sees d (real DEFAULT_MAX_RANGE) (real DEFAULT_RESOLUTION) wall) S ->
  exists o cb, (do o0 <- om_default d f ; map_frames fuel o0 fs) = Ret o /\ covers_cells d DEFAULT_RESOLUTION DEFAULT_TILE_SIZE (om_grid o) cb /\ forall w, length w = d ->
    ((exists s, In s S /\ scan_hits d (real DEFAULT_MAX_RANGE) (real DEFAULT_RESOLUTION) s w) -> wall w /\ in_box cb w) /\
    (in_box cb w -> exists b, om_occupied o (map2 Z.sub w (cmin cb)) = Ret b /\ (b = true <-> exists s, In s S /\ scan_hits d (real DEFAULT_MAX_RANGE) (real DEFAULT_RESOLUTION) s w)).
Proof. exact drive_default. Qed.
Print Assumptions C100_default.

(** Two scans from a sensor the position of which is not an f32, past the walls of C98. *)
Example C100_default_example : ln_accurate near_ln /\ (exists fs, driven 3 DEFAULT_MAX_RANGE DEFAULT_RESOLUTION [dr_scan; dr_scan] fs) /\
  Forall (sees 3 (real DEFAULT_MAX_RANGE) (real DEFAULT_RESOLUTION) tr_walls) [dr_scan; dr_scan].
Proof. exact dr_default. Qed.

(** Neither the order of the scans nor the tile size changes what the map holds. *)
Theorem C100_order : forall d r t t' m, map_range d r t -> map_range d r t' -> t <= 2 ^ 13 -> t' <= 2 ^ 13 -> (bpow radix2 (-30) <= real r <= bpow radix2 30)%R ->
  fltb f0 (max_range m) = true -> finite (max_range m) -> (real (max_range m) <= 1048576 * real r)%R ->
  forall fuel S S' fs fs' wall, (3072 <= fuel)%nat -> driven d (max_range m) r S fs -> driven d (max_range m) r S' fs' -> Permutation S S' -> Forall (sees d (real (max_range m)) (real r) wall) S ->
  exists o o' cb cb', map_drive d m r t fuel fs = Ret o /\ map_drive d m r t' fuel fs' = Ret o' /\ covers_cells d r t (om_grid o) cb /\ covers_cells d r t' (om_grid o') cb' /\
    forall w, length w = d -> exists v, world_value (om_grid o) cb f0 w v /\ world_value (om_grid o') cb' f0 w v.
Proof. exact drive_order. Qed.
Print Assumptions C100_order.

(** The drive of C100_walls_example, and the same backwards. *)
Example C100_order_example : (map_range 3 f1 2 /\ map_range 3 f1 4 /\ (bpow radix2 (-30) <= real f1 <= bpow radix2 30)%R) /\
  (fltb f0 (max_range sm_lidar) = true /\ finite (max_range sm_lidar) /\ (real (max_range sm_lidar) <= 1048576 * real f1)%R) /\
  driven 3 (max_range sm_lidar) f1 [wd_1; wd_2] dr_frames /\ driven 3 (max_range sm_lidar) f1 [wd_2; wd_1] (rev dr_frames) /\ Permutation [wd_1; wd_2] [wd_2; wd_1] /\
  Forall (sees 3 (real (max_range sm_lidar)) (real f1) wl_walls) [wd_1; wd_2].
Proof. exact dr_order. Qed.

(** The scans [S0] may have been taken in any other world: with the default model, nine scans [S1] of this one that pass a cell, or three that hit it, put the map right. *)
Theorem C100_changed : forall f, ln_accurate f -> exists m, lidar_default f = Ret m /\ max_range m = DEFAULT_MAX_RANGE /\
  forall d r t fuel S0 S1 fs wall, map_range d r t -> t <= 2 ^ 13 -> (bpow radix2 (-30) <= real r <= bpow radix2 30)%R -> (real DEFAULT_MAX_RANGE <= 1048576 * real r)%R ->
  (3072 <= fuel)%nat -> driven d DEFAULT_MAX_RANGE r (S0 ++ S1) fs -> Forall (sees d (real DEFAULT_MAX_RANGE) (real r) wall) S1 ->
  exists o cb, map_drive d m r t fuel fs = Ret o /\ covers_cells d r t (om_grid o) cb /\ forall w vs, length w = d -> Forall2 (verdict d (real DEFAULT_MAX_RANGE) (real r) w) S1 vs ->
    (~ wall w -> (9 <= seen false vs)%nat -> in_box cb w /\ om_occupied o (map2 Z.sub w (cmin cb)) = Ret false) /\
    (wall w -> (3 <= seen true vs)%nat -> in_box cb w /\ om_occupied o (map2 Z.sub w (cmin cb)) = Ret true).
Proof. exact drive_changed. Qed.
Print Assumptions C100_changed.

(** A wall two cells away that is taken down or put up after [i] scans. *)
Example C100_changed_example : ln_accurate near_ln /\ (map_range 3 f1 2 /\ (bpow radix2 (-30) <= real f1 <= bpow radix2 30)%R /\ (real DEFAULT_MAX_RANGE <= 1048576 * real f1)%R) /\
  forall b i j, (exists fs, driven 3 DEFAULT_MAX_RANGE f1 (map wl_scan (repeat (negb b) i) ++ map wl_scan (repeat b j)) fs) /\
    Forall (sees 3 (real DEFAULT_MAX_RANGE) (real f1) (wl_wall b)) (map wl_scan (repeat b j)) /\
    Forall2 (verdict 3 (real DEFAULT_MAX_RANGE) (real f1) [2; 0; 0]) (map wl_scan (repeat b j)) (repeat (Some b) j).
Proof. exact dr_changed. Qed.
