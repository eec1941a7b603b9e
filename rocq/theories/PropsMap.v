(** C20-C28, C74: grid maps. *)
From Coq Require Import ZArith List Bool Reals Lra Lia.
From Flocq Require Import Core BinarySingleNaN.
From Verif Require Import Base F32 Arith Geom NdArray GridMap Spec SpecMap SpecBuilt GridProofs ExpandProofs MapProofs AlignProofs BuiltProofs Examples ExamplesMap BuiltReal ExamplesBuilt.
Open Scope Z_scope.

Theorem C20_set_then_get : forall A (g : grid_map A) c v g', storage_ok (gm_data g) -> cells_in_isize c -> gm_set g c v = Ret g' ->
  storage_ok (gm_data g') /\ nd_shape (gm_data g') = nd_shape (gm_data g) /\
  gm_get g' c = Ret v /\
  (forall c', cells_in_isize c' -> c' <> c -> gm_get g' c' = gm_get g c') /\
  gm_bounds g' = gm_bounds g /\ gm_resolution g' = gm_resolution g /\ gm_tile_size g' = gm_tile_size g /\
  gm_track_changes g' = gm_track_changes g /\ gm_changed_cells g' = gm_changed_cells g.
Proof. exact @gm_set_spec. Qed.
Print Assumptions C20_set_then_get.

(** After any sequence of sets every cell reads its last write. *)
Theorem C20_last_write : forall A (ws : list (cell * A)) (g g' : grid_map A), storage_ok (gm_data g) ->
  Forall (fun w => cells_in_isize (fst w)) ws ->
  ofold (fun m w => gm_set m (fst w) (snd w)) g ws = Ret g' ->
  storage_ok (gm_data g') /\ nd_shape (gm_data g') = nd_shape (gm_data g) /\
  (forall c, cells_in_isize c -> ~ In c (map fst ws) -> gm_get g' c = gm_get g c) /\
  (forall ws1 w ws2, ws = ws1 ++ w :: ws2 -> ~ In (fst w) (map fst ws2) -> gm_get g' (fst w) = Ret (snd w)).
Proof. exact @set_many. Qed.
Print Assumptions C20_last_write.

(** The hypothesis holds for every map [new] makes. *)
Theorem C20_new_storage : forall A r b t (v : A) g, gm_new r b t v = Ret g -> storage_ok (gm_data g).
Proof. exact @new_storage_ok. Qed.
Print Assumptions C20_new_storage.

Example C20_example : exists g0 g1 g2 g3 : grid_map Z,
  gm_new tenth (bounds_empty 2) 4 7 = Ret g0 /\ reachable 2 tenth 4 g0 /\
  gm_expand_bounds g0 ex_b1 8 = Ret g1 /\ gm_set g1 [3; 5] 9 = Ret g2 /\ reachable 2 tenth 4 g2 /\
  gm_expand_bounds g2 ex_b2 10 = Ret g3 /\
  nd_shape (gm_data g2) = [8; 8] /\ nd_shape (gm_data g3) = [16; 12] /\
  gm_get g2 [3; 5] = Ret 9 /\ gm_get g3 [11; 5] = Ret 9 /\ gm_get g3 [11; 6] = Ret 8 /\ gm_get g3 [3; 5] = Ret 10.
Proof. exact ex_maps. Qed.

Theorem C21_get : forall A (g : grid_map A) c, storage_ok (gm_data g) -> cells_in_isize c ->
  (in_range (nd_shape (gm_data g)) c -> exists v, gm_get g c = Ret v) /\
  (~ in_range (nd_shape (gm_data g)) c -> gm_get g c = Panic).
Proof. exact @gm_get_iff. Qed.
Print Assumptions C21_get.

Theorem C21_set : forall A (g : grid_map A) c v, storage_ok (gm_data g) -> cells_in_isize c ->
  (in_range (nd_shape (gm_data g)) c -> exists g', gm_set g c v = Ret g') /\
  (~ in_range (nd_shape (gm_data g)) c -> gm_set g c v = Panic).
Proof. exact @gm_set_iff. Qed.
Print Assumptions C21_set.

Theorem C21_negative : forall A (g : grid_map A) c v, storage_ok (gm_data g) -> cells_in_isize c ->
  Exists (fun x => x < 0) c -> gm_get g c = Panic /\ gm_set g c v = Panic.
Proof. exact @get_negative. Qed.
Print Assumptions C21_negative.

Example C21_example : exists g : grid_map Z, storage_ok (gm_data g) /\ nd_shape (gm_data g) = [8; 8] /\
  in_range [8; 8] [7; 0] /\ ~ in_range [8; 8] [7; 8] /\ cells_in_isize [7; -1].
Proof. exact ex_ranges. Qed.

Theorem C22_new_uniform : forall A r b t (v : A) g, gm_new r b t v = Ret g ->
  storage_ok (gm_data g) /\ nd_shape (gm_data g) = cell_from_point F32A (bmax b) (bmin b) r /\
  (forall c, in_range (nd_shape (gm_data g)) c -> gm_get g c = Ret v) /\
  gm_bounds g = b /\ gm_resolution g = r /\ gm_tile_size g = t /\
  gm_track_changes g = false /\ gm_changed_cells g = [].
Proof. exact @gm_new_storage. Qed.
Print Assumptions C22_new_uniform.

(** A new map is made exactly if no axis has a negative number of cells and the array is not too
    large (axes without cells do not count); otherwise the program panics. *)
Theorem C22_new_iff : forall A r b t (v : A), let s := cell_from_point F32A (bmax b) (bmin b) r in
  let fits := Forall (fun n => 0 <= n) s /\ fold_right (fun n a => if n =? 0 then a else n * a) 1 s <= isize_max in
  (fits -> exists g, gm_new r b t v = Ret g) /\ (~ fits -> gm_new r b t v = Panic).
Proof. exact @gm_new_iff. Qed.
Print Assumptions C22_new_iff.

Example C22_iff_example : cell_from_point F32A [f1; f1] [f0; f0] tenth = [10; 10] /\ cell_from_point F32A [f0; f1] [f1; f0] tenth = [-10; 10].
Proof. exact sizes_of_boxes. Qed.

Theorem C22_new_aligned : forall A d r t cb (v : A), (d <= 3)%nat -> res_ok r -> cb_ordered d cb -> cb_near (2 ^ 19) cb ->
  exists g, gm_new r (bounds_from_cell_bounds cb r) t v = Ret g /\
    nd_shape (gm_data g) = map2 Z.sub (cmax cb) (cmin cb) /\ storage_ok (gm_data g) /\
    (forall c, in_range (nd_shape (gm_data g)) c -> gm_get g c = Ret v).
Proof. exact @new_aligned. Qed.
Print Assumptions C22_new_aligned.

Theorem C22_default : forall A d (v : A), (d = 2 \/ d = 3)%nat ->
  gm_default d = gm_new (f32_lit 1 10) (bounds_empty d) 100 v /\
  exists g, gm_default (A := A) d = Ret g /\ nd_shape (gm_data g) = repeat 0 d /\
    (forall c, cells_in_isize c -> gm_get g c = Panic).
Proof. exact @default_new. Qed.
Print Assumptions C22_default.

(** A map made from an array shows its elements in row-major order and does not track changes. *)
Theorem C22_from_array : forall A (a : ndarray A) r b t, storage_ok a ->
  let g := gm_from_ndarray a r b t in
  storage_ok (gm_data g) /\ nd_shape (gm_data g) = nd_shape a /\ gm_bounds g = b /\ gm_resolution g = r /\ gm_tile_size g = t /\
  gm_track_changes g = false /\ gm_changed_cells g = [] /\
  (forall c, in_range (nd_shape a) c -> exists v, gm_get g c = Ret v /\
     nth_error (nd_data a) (Z.to_nat (fold_left (fun k p => k * fst p + snd p) (combine (nd_shape a) c) 0)) = Some v).
Proof. exact @from_array. Qed.
Print Assumptions C22_from_array.

Example C22_array_example : storage_ok (mkNd [2; 3] [10; 11; 12; 13; 14; 15]) /\ in_range [2; 3] [1; 0].
Proof. exact array_ok. Qed.

Example C22_example : res_ok tenth /\ cb_ordered 3 (mkCB [-3; 5; 0] [4; 7; 2]) /\ cb_near (2 ^ 19) (mkCB [-3; 5; 0] [4; 7; 2]).
Proof. exact ex_aligned. Qed.

Theorem C23_values_kept : forall A d r t (g : grid_map A) b v, map_range d r t -> reachable d r t g -> request_ok d r b ->
  exists g' cb cb', gm_expand_bounds g b v = Ret g' /\ covers_cells d r t g cb /\ covers_cells d r t g' cb' /\
  forall c, in_range (nd_shape (gm_data g)) c ->
    let w := map2 Z.add (cmin cb) c in
    let c' := map2 Z.sub w (cmin cb') in
    in_range (nd_shape (gm_data g')) c' /\
    (exists x, gm_get g c = Ret x /\ gm_get g' c' = Ret x) /\
    near_cell r w (gm_point_from_cell g c) /\ near_cell r w (gm_point_from_cell g' c').
Proof. exact @expand_keeps. Qed.
Print Assumptions C23_values_kept.

(** The cells covered by a map are determined by its bounds. *)
Theorem C23_cells_unique : forall A d r t (g : grid_map A) cb cb', res_ok r ->
  covers_cells d r t g cb -> covers_cells d r t g cb' -> cb = cb'.
Proof. exact @covers_unique. Qed.
Print Assumptions C23_cells_unique.

Example C23_example : map_range 2 tenth 4 /\ request_ok 2 tenth ex_b1 /\ request_ok 2 tenth ex_b2.
Proof. exact (conj ex_map_range (conj ex_b1_ok ex_b2_ok)). Qed.

Theorem C24_expand : forall A d r t (g : grid_map A) b v, map_range d r t -> reachable d r t g -> request_ok d r b ->
  exists g' db cb cb' u, gm_expand_bounds g b v = Ret g' /\
  covers_cells d r t g cb /\ covers_cells d r t g' cb' /\
  bounds_discretized b r true = Ret db /\ cells_union d cb (cb_from_bounds db r) u /\
  Forall2 (tile_below t) (cmin u) (cmin cb') /\ Forall2 (tile_above t) (cmax u) (cmax cb') /\
  (is_zero_box (gm_bounds g) \/ sub_box (gm_bounds g) (gm_bounds g')) /\
  (forall w, in_box cb' w -> ~ in_box cb w -> gm_get g' (map2 Z.sub w (cmin cb')) = Ret v) /\
  gm_track_changes g' = gm_track_changes g /\ gm_changed_cells g' = gm_changed_cells g.
Proof. exact @expand_wellformed. Qed.
Print Assumptions C24_expand.

(** Which cells the map has after growing, in terms of the requested corners alone. *)
Theorem C24_cells : forall A d r t (g : grid_map A) b v, map_range d r t -> reachable d r t g -> request_ok d r b ->
  exists g' cb cb' lo hi u, gm_expand_bounds g b v = Ret g' /\ covers_cells d r t g cb /\ covers_cells d r t g' cb' /\
  Forall2 (fun k x => real x / real r - 6 / 5 < IZR k <= real x / real r + / 5)%R lo (bmin b) /\
  Forall2 (fun k x => real x / real r < IZR k <= real x / real r + 6 / 5)%R hi (bmax b) /\
  cells_union d cb (mkCB lo hi) u /\ Forall2 (tile_below t) (cmin u) (cmin cb') /\ Forall2 (tile_above t) (cmax u) (cmax cb').
Proof. exact @grown_cells. Qed.
Print Assumptions C24_cells.

Theorem C24_reachable : forall A d r t (g : grid_map A), map_range d r t -> reachable d r t g ->
  exists cb, covers_cells d r t g cb.
Proof. exact @reachable_covers. Qed.
Print Assumptions C24_reachable.

(** Every cell of a map holds the last value written to that place of the world. *)
Theorem C24_history : forall A d r t (g : grid_map A) W, map_range d r t -> history d r t g W ->
  exists cb, covers_cells d r t g cb /\
  (forall w, in_box cb w -> exists x, W w = Some x /\ gm_get g (map2 Z.sub w (cmin cb)) = Ret x) /\
  (forall w, ~ in_box cb w -> W w = None).
Proof. exact @history_contents. Qed.
Print Assumptions C24_history.

Example C24_example : exists (g : grid_map Z) W, history 2 tenth 4 g W /\
  W [-1; 1] = Some 9 /\ W [0; 2] = Some 8 /\ W [-9; 2] = Some 10 /\ W [8; 2] = None.
Proof. exact ex_history. Qed.

(** Not every point of the requested box can be read afterwards. *)
Theorem C25_room_refuted : exists (g g' : grid_map Z) b p, map_range 2 tenth 4 /\ reachable 2 tenth 4 g /\ request_ok 2 tenth b /\
  inside b p /\ gm_expand_bounds g b 0 = Ret g' /\ gm_get g' (gm_cell_from_point g' p) = Panic.
Proof. exact no_room. Qed.
Print Assumptions C25_room_refuted.

(** What does hold.  The full statement would be
    [exists x, gm_get g' (gm_cell_from_point g' p) = Ret x] for every [p] inside [b];
    the index is never more than one past the end, and is in range when on every axis
    the point is a cell below the upper bound or in the lower quarter of a cell. *)
Theorem C25_room_partial : forall A d r t (g : grid_map A) b v g' p, map_range d r t -> reachable d r t g -> request_ok d r b ->
  gm_expand_bounds g b v = Ret g' -> inside b p ->
  Forall2 (fun n i => 0 <= i <= n) (nd_shape (gm_data g')) (gm_cell_from_point g' p) /\
  (Forall2 (axis_safe r) p (bmax b) -> exists x, gm_get g' (gm_cell_from_point g' p) = Ret x).
Proof. exact @expand_room. Qed.
Print Assumptions C25_room_partial.

Example C25_example : inside ex_b1 [f32_lit (-36) 100; f0] /\ Forall2 (axis_safe tenth) [f32_lit (-36) 100; f0] (bmax ex_b1).
Proof. exact ex_room. Qed.

(** Which points can be read, for every map: the point reads the world cell nearest to it,
    up to a fifth of a cell.  So it can be read when on every axis it is well inside the
    range of cells, and the program panics when on some axis it is not, for example in the
    upper part of the last cell. *)
Theorem C25_nearest_partial : forall A d r t (g : grid_map A) cb p, map_range d r t -> reachable d r t g -> covers_cells d r t g cb ->
  length p = d -> Forall (within_cells (2 ^ 18) r) p ->
  exists w, Forall2 (fun k x => (Rabs (IZR k - real x / real r) <= 7 / 10)%R) w p /\
    gm_cell_from_point g p = map2 Z.sub w (cmin cb) /\
    (in_box cb w -> exists v, gm_get g (gm_cell_from_point g p) = Ret v) /\
    (~ in_box cb w -> gm_get g (gm_cell_from_point g p) = Panic).
Proof. exact @reads_nearest. Qed.
Print Assumptions C25_nearest_partial.

Theorem C25_which_points_partial : forall A d r t (g : grid_map A) cb p, map_range d r t -> reachable d r t g -> covers_cells d r t g cb ->
  length p = d -> Forall (within_cells (2 ^ 18) r) p ->
  ((forall i, (i < d)%nat -> IZR (nth i (cmin cb) 0%Z) - 3 / 10 < real (nth i p f0) / real r < IZR (nth i (cmax cb) 0%Z) - 7 / 10)%R ->
   exists v, gm_get g (gm_cell_from_point g p) = Ret v) /\
  (forall i, (i < d)%nat ->
     (real (nth i p f0) / real r < IZR (nth i (cmin cb) 0%Z) - 7 / 10 \/
      IZR (nth i (cmax cb) 0%Z) - 3 / 10 < real (nth i p f0) / real r)%R ->
   gm_get g (gm_cell_from_point g p) = Panic).
Proof. exact @reads_which. Qed.
Print Assumptions C25_which_points_partial.

Example C25_which_points_example : exists g : grid_map Z, reachable 2 tenth 4 g /\ covers_cells 2 tenth 4 g (mkCB [-4; -4] [4; 4]) /\
  Forall (within_cells (2 ^ 18) tenth) [f32_lit (-36) 100; f0] /\ Forall (within_cells (2 ^ 18) tenth) [f32_lit 38 100; f0] /\
  (IZR (-4) - 3 / 10 < real (f32_lit (-36) 100) / real tenth < IZR 4 - 7 / 10)%R /\
  (IZR (-4) - 3 / 10 < real f0 / real tenth < IZR 4 - 7 / 10)%R /\
  (IZR 4 - 3 / 10 < real (f32_lit 38 100) / real tenth)%R.
Proof. exact ex_reads. Qed.

Theorem C26_covered : forall A d r t (g : grid_map A) b v db, map_range d r t -> reachable d r t g -> request_ok d r b ->
  bounds_discretized b r true = Ret db -> sub_box db (gm_bounds g) -> gm_expand_bounds g b v = Ret g.
Proof. exact @expand_inside. Qed.
Print Assumptions C26_covered.

Theorem C26_repeated : forall A d r t (g : grid_map A) b v v' g', map_range d r t -> reachable d r t g -> request_ok d r b ->
  gm_expand_bounds g b v = Ret g' -> gm_expand_bounds g' b v' = Ret g'.
Proof. exact @expand_twice. Qed.
Print Assumptions C26_repeated.

(** The same without mention of how boxes are rounded. *)
Theorem C26_well_inside : forall A d r t (g : grid_map A) cb b v, map_range d r t -> reachable d r t g -> covers_cells d r t g cb -> request_ok d r b ->
  Forall2 (fun k x => IZR k + / 5 <= real x / real r)%R (cmin cb) (bmin b) ->
  Forall2 (fun x k => real x / real r < IZR k - / 5)%R (bmax b) (cmax cb) ->
  gm_expand_bounds g b v = Ret g.
Proof. exact @expand_well_inside. Qed.
Print Assumptions C26_well_inside.

Example C26_well_inside_example : exists g : grid_map Z, reachable 2 tenth 4 g /\ covers_cells 2 tenth 4 g (mkCB [-4; -4] [4; 4]) /\ request_ok 2 tenth ex_bp /\
  Forall2 (fun k x => IZR k + / 5 <= real x / real tenth)%R [-4; -4] (bmin ex_bp) /\
  Forall2 (fun x k => real x / real tenth < IZR k - / 5)%R (bmax ex_bp) [4; 4].
Proof. exact ex_well_inside. Qed.

Example C26_example : exists (g : grid_map Z) db, reachable 2 tenth 4 g /\ bounds_discretized ex_bp tenth true = Ret db /\
  sub_box db (gm_bounds g).
Proof. exact ex_covered. Qed.

Theorem C27_arbitrary_bounds_refuted : exists b b' (g : grid_map Z), ordered 2 b /\ request_ok 2 tenth b' /\
  gm_new tenth b 2 0 = Ret g /\ gm_expand_bounds g b' 0 = Panic.
Proof. exact unaligned_panics. Qed.
Print Assumptions C27_arbitrary_bounds_refuted.

(** What does hold.  The full statement would have any ordered box in place of the
    tile-aligned box [bounds_from_cell_bounds cb r]. *)
Theorem C27_aligned_bounds_partial : forall A d r t cb b (v v' : A), map_range d r t ->
  cb_ordered d cb -> tile_aligned t cb -> cb_near (2 ^ 18) cb -> request_ok d r b ->
  exists g g', gm_new r (bounds_from_cell_bounds cb r) t v = Ret g /\ gm_expand_bounds g b v' = Ret g'.
Proof. exact @aligned_expandable. Qed.
Print Assumptions C27_aligned_bounds_partial.

Example C27_example : cb_ordered 2 (mkCB [-4; 8] [12; 16]) /\ tile_aligned 4 (mkCB [-4; 8] [12; 16]) /\ cb_near (2 ^ 18) (mkCB [-4; 8] [12; 16]).
Proof. exact ex_aligned_tiles. Qed.

(** The exact condition, for every box: it is the empty box, or the request changes
    nothing, or on no axis are there more cells from the cell of the lower corner to the
    cell of the upper corner than the map has.  Otherwise the program panics. *)
Theorem C27_condition_partial : forall A d r t b (g : grid_map A) b' v db, map_range d r t -> request_ok d r b -> built r t b g ->
  request_ok d r b' -> bounds_discretized b' r true = Ret db ->
  let cb := cells_between r b in
  ((exists g', gm_expand_bounds g b' v = Ret g') <->
   is_zero_box b \/ (tile_aligned t cb /\ sub_cells (cells_between r db) cb) \/
   Forall2 Z.le (map2 Z.sub (cmax cb) (cmin cb)) (nd_shape (gm_data g))) /\
  ((forall g', gm_expand_bounds g b' v <> Ret g') -> gm_expand_bounds g b' v = Panic).
Proof. exact @built_expandable. Qed.
Print Assumptions C27_condition_partial.

Theorem C27_can_be_built : forall A d r t b (v : A), map_range d r t -> request_ok d r b ->
  exists g, gm_new r b t v = Ret g /\ built r t b g.
Proof. exact @new_for_box. Qed.
Print Assumptions C27_can_be_built.

Example C27_condition_example : exists (g g' : grid_map Z) db, request_ok 2 tenth ex_fits /\ built tenth 4 ex_fits g /\ request_ok 2 tenth ex_request /\
  bounds_discretized ex_request tenth true = Ret db /\
  cells_between tenth ex_fits = mkCB [1; 1] [4; 6] /\ nd_shape (gm_data g) = [3; 5] /\
  gm_get g [2; 4] = Ret 9 /\ gm_expand_bounds g ex_request 8 = Ret g' /\ g' <> g /\ nd_shape (gm_data g') = [12; 12] /\
  gm_get g' [3; 5] = Ret 9 /\ gm_get g' [4; 5] = Ret 8.
Proof. exact fits_expands. Qed.

(** The condition by the corners of the box.  Any request works if on every axis the
    lower corner is less than 3/8 of a cell further from the centre of its cell, in the
    positive direction, than the upper one is from its own ... *)
Theorem C27_fits_partial : forall A d r t b (g : grid_map A) b' v, map_range d r t -> request_ok d r b -> built r t b g -> request_ok d r b' ->
  (forall i, (i < d)%nat -> exists f h, corners_off r b i f h /\ (f - h < 3 / 8)%R) ->
  exists g', gm_expand_bounds g b' v = Ret g'.
Proof. exact @fits. Qed.
Print Assumptions C27_fits_partial.

Example C27_fits_example : exists g : grid_map Z, request_ok 2 tenth bx_fits /\ built tenth 4 bx_fits g /\ request_ok 2 tenth ex_request /\
  forall i, (i < 2)%nat -> exists f h, corners_off tenth bx_fits i f h /\ (f - h < 3 / 8)%R.
Proof. exact bx_fits_case. Qed.

(** ... and every request that leaves the box by a cell panics if on some axis it is
    more than 5/8 of a cell. *)
Theorem C27_panics_partial : forall A d r t b (g : grid_map A) b' v i j f h, map_range d r t -> request_ok d r b -> built r t b g -> request_ok d r b' ->
  (i < d)%nat -> corners_off r b i f h -> (5 / 8 < f - h)%R -> (j < d)%nat -> leaves r b b' j ->
  gm_expand_bounds g b' v = Panic.
Proof. exact @does_not_fit. Qed.
Print Assumptions C27_panics_partial.

Example C27_panics_example : exists (g : grid_map Z) f h, request_ok 2 tenth ex_unaligned /\ built tenth 2 ex_unaligned g /\ request_ok 2 tenth ex_request /\
  corners_off tenth ex_unaligned 0 f h /\ (5 / 8 < f - h)%R /\ leaves tenth ex_unaligned ex_request 1.
Proof. exact bx_panics. Qed.

Theorem C28_round_trip : forall A d r t (g : grid_map A) c, map_range d r t -> reachable d r t g ->
  in_range (nd_shape (gm_data g)) c -> gm_cell_from_point g (gm_point_from_cell g c) = c.
Proof. exact @map_round_trip. Qed.
Print Assumptions C28_round_trip.

(** The centre of a world cell as computed by any map that covers it. *)
Theorem C28_same_place : forall A d r t (g : grid_map A) cb, map_range d r t -> reachable d r t g -> covers_cells d r t g cb ->
  forall w, in_box cb w -> near_cell r w (gm_point_from_cell g (map2 Z.sub w (cmin cb))).
Proof. exact @map_points. Qed.
Print Assumptions C28_same_place.

Example C28_example : exists g : grid_map Z, map_range 2 tenth 4 /\ reachable 2 tenth 4 g /\ in_range (nd_shape (gm_data g)) [7; 3].
Proof. exact ex_map_cell. Qed.

Theorem C74_keeps_values_refuted : exists b b' (g g' : grid_map Z), request_ok 2 tenth b /\ request_ok 2 tenth b' /\ built tenth 2 b g /\
  gm_expand_bounds g b' 0 = Ret g' /\ in_range (nd_shape (gm_data g)) [1; 1] /\ gm_get g [1; 1] = Ret 7 /\
  forall c, gm_get g' c <> Ret 7.
Proof. exact short_loses. Qed.
Print Assumptions C74_keeps_values_refuted.

(** What does hold: the values of the cells between the cells of the two corners are
    kept.  The full statement would have every cell of the map in place of these. *)
Theorem C74_between_corners_partial : forall A d r t b (g : grid_map A) b' v g', map_range d r t -> request_ok d r b -> built r t b g ->
  request_ok d r b' -> gm_expand_bounds g b' v = Ret g' -> g' <> g ->
  exists cb', covers_cells d r t g' cb' /\
  (~ is_zero_box b -> sub_cells (cells_between r b) cb') /\
  (forall w, in_box (cells_between r b) w -> gm_get g' (map2 Z.sub w (cmin cb')) = gm_get g (map2 Z.sub w (cmin (cells_between r b)))) /\
  (forall w, in_box cb' w -> ~ in_box (cells_between r b) w -> gm_get g' (map2 Z.sub w (cmin cb')) = Ret v).
Proof. exact @built_contents. Qed.
Print Assumptions C74_between_corners_partial.

Example C74_example : exists (g g' : grid_map Z) db, request_ok 2 tenth ex_fits /\ built tenth 4 ex_fits g /\ request_ok 2 tenth ex_request /\
  bounds_discretized ex_request tenth true = Ret db /\
  cells_between tenth ex_fits = mkCB [1; 1] [4; 6] /\ nd_shape (gm_data g) = [3; 5] /\
  gm_get g [2; 4] = Ret 9 /\ gm_expand_bounds g ex_request 8 = Ret g' /\ g' <> g /\ nd_shape (gm_data g') = [12; 12] /\
  gm_get g' [3; 5] = Ret 9 /\ gm_get g' [4; 5] = Ret 8.
Proof. exact fits_expands. Qed.

(** By the corners of the box: if on no axis they are off the centres of their cells by
    amounts that differ by 3/8 of a cell, everything is kept, where index [c] becomes the
    world cell [c + m] for the cell [m] of the lower corner ... *)
Theorem C74_kept_partial : forall A d r t b (g : grid_map A) b' v, map_range d r t -> request_ok d r b -> built r t b g -> request_ok d r b' ->
  (forall i, (i < d)%nat -> exists f h, corners_off r b i f h /\ (Rabs (f - h) < 3 / 8)%R) ->
  exists g', gm_expand_bounds g b' v = Ret g' /\
  (g' = g \/ exists cb' m, covers_cells d r t g' cb' /\ Forall2 (fun k x => exists f, off_centre r k f x) m (bmin b) /\
   forall c, in_range (nd_shape (gm_data g)) c -> gm_get g' (map2 Z.sub (map2 Z.add c m) (cmin cb')) = gm_get g c).
Proof. exact @kept_all. Qed.
Print Assumptions C74_kept_partial.

Example C74_kept_example : exists g : grid_map Z, request_ok 2 tenth bx_fits /\ built tenth 4 bx_fits g /\ request_ok 2 tenth ex_request /\
  forall i, (i < 2)%nat -> exists f h, corners_off tenth bx_fits i f h /\ (Rabs (f - h) < 3 / 8)%R.
Proof. exact bx_case. Qed.

(** ... and if on some axis the upper corner is more than 5/8 of a cell further off than
    the lower one, the last row across this axis is lost: its cells get the default. *)
Theorem C74_lost_partial : forall A d r t b (g : grid_map A) b' v g' i f h, map_range d r t -> request_ok d r b -> built r t b g -> request_ok d r b' ->
  (forall j, (j < d)%nat -> exists f h, corners_off r b j f h) ->
  (i < d)%nat -> corners_off r b i f h -> (f - h < - (5 / 8))%R ->
  gm_expand_bounds g b' v = Ret g' -> g' <> g ->
  exists cb' m, covers_cells d r t g' cb' /\ Forall2 (fun k x => exists f, off_centre r k f x) m (bmin b) /\
  forall c, in_range (nd_shape (gm_data g)) c -> nth i c 0 = nth i (nd_shape (gm_data g)) 0 - 1 ->
  in_box cb' (map2 Z.add c m) -> gm_get g' (map2 Z.sub (map2 Z.add c m) (cmin cb')) = Ret v.
Proof. exact @lost_last. Qed.
Print Assumptions C74_lost_partial.

Example C74_lost_example : exists (g g' : grid_map Z) f h, request_ok 2 tenth ex_short /\ built tenth 2 ex_short g /\ request_ok 2 tenth ex_request /\
  (forall j, (j < 2)%nat -> corners_off tenth ex_short j f h) /\ (f - h < - (5 / 8))%R /\
  gm_expand_bounds g ex_request 0 = Ret g' /\ g' <> g /\ in_range (nd_shape (gm_data g)) [1; 1].
Proof. exact bx_loses. Qed.
