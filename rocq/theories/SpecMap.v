(** What the properties of grid maps talk about. *)
From Coq Require Import ZArith List Bool Reals.
From Flocq Require Import Core BinarySingleNaN.
From Verif Require Import Base F32 Arith Geom NdArray GridMap Spec.
Open Scope Z_scope.

(** [c] is an index of an array with these axis lengths. *)
Definition in_range (shape : list Z) (c : cell) : Prop := Forall2 (fun n x => 0 <= x < n) shape c.
(** Axis lengths are usable as indices and the storage has exactly their product. *)
Definition storage_ok {A} (a : ndarray A) : Prop :=
  Forall (fun n => 0 <= n <= isize_max) (nd_shape a) /\
  Z.of_nat (length (nd_data a)) = fold_right Z.mul 1 (nd_shape a).

(** The range of parameters and requests for which histories are analysed. *)
Definition map_range (d : nat) (r : f32) (t : Z) : Prop :=
  (d = 2 \/ d = 3)%nat /\ res_ok r /\ 1 <= t <= 2 ^ 17.
Definition request_ok (d : nat) (r : f32) (b : bounds) : Prop :=
  ordered d b /\ Forall (within_cells (2 ^ 18) r) (bmin b) /\ Forall (within_cells (2 ^ 18) r) (bmax b).
(** A coordinate lies, up to an eighth of the resolution, on a multiple of it;
    it does, and that multiple is beyond the cell which contains [v]. *)
Definition on_grid (r x : f32) : Prop := exists k : Z, (Rabs (real x - IZR k * real r) <= / 8 * real r)%R.
Definition next_corner (r v x : f32) : Prop := exists k : Z, (Rabs (real x - IZR k * real r) <= / 8 * real r)%R /\
  forall j, Z.abs j <= 2 ^ 20 -> (IZR j * real r <= real v)%R -> j + 1 <= k.

(** Boxes of cells *)
Definition cb_ordered (d : nat) (cb : cell_bounds) : Prop :=
  length (cmin cb) = d /\ length (cmax cb) = d /\ Forall2 Z.le (cmin cb) (cmax cb).
Definition tile_aligned (t : Z) (cb : cell_bounds) : Prop :=
  Forall (Z.divide t) (cmin cb) /\ Forall (Z.divide t) (cmax cb).
Definition cb_near (n : Z) (cb : cell_bounds) : Prop :=
  Forall (fun x => Z.abs x <= n) (cmin cb) /\ Forall (fun x => Z.abs x <= n) (cmax cb).
Definition sub_cells (a b : cell_bounds) : Prop :=
  Forall2 Z.le (cmin b) (cmin a) /\ Forall2 Z.le (cmax a) (cmax b).

(** The smallest box of cells containing two boxes; a box of no cells at the origin
    counts as nothing. *)
Definition cells_union (d : nat) (a b : cell_bounds) (u : cell_bounds) : Prop :=
  (a = cb_empty d -> u = b) /\
  (a <> cb_empty d -> u = mkCB (map2 Z.min (cmin a) (cmin b)) (map2 Z.max (cmax a) (cmax b))).

(** Every map made by [new] for the box [b] and then only written to. *)
Inductive built {A} (r : f32) (t : Z) (b : bounds) : grid_map A -> Prop :=
| built_new : forall v g, gm_new r b t v = Ret g -> built r t b g
| built_set : forall g c v g', built r t b g -> gm_set g c v = Ret g' -> built r t b g'
| built_track : forall g x, built r t b g -> built r t b (gm_set_track_changes g x)
| built_clear : forall g, built r t b g -> built r t b (gm_clear_changed_cells g)
| built_add : forall g l, built r t b g -> built r t b (gm_add_changed_cells g l).

(** The number of the world cell a coordinate is in, and the world cells between the
    corners of a box. *)
Definition cell_number (r x : f32) : Z := f32_to_isize (fround (fdiv x r)).
Definition cells_between (r : f32) (b : bounds) : cell_bounds :=
  mkCB (map (cell_number r) (bmin b)) (map (cell_number r) (bmax b)).

(** Every map that some sequence of operations produces, starting from an empty map,
    one made for a tile-aligned box, or one made for any box once it has grown. *)
Inductive reachable {A} (d : nat) (r : f32) (t : Z) : grid_map A -> Prop :=
| reach_new : forall v g, gm_new r (bounds_empty d) t v = Ret g -> reachable d r t g
| reach_aligned : forall cb v g, cb_ordered d cb -> tile_aligned t cb -> cb_near (2 ^ 18) cb ->
    gm_new r (bounds_from_cell_bounds cb r) t v = Ret g -> reachable d r t g
| reach_grown : forall b g b' v g', request_ok d r b -> built r t b g -> request_ok d r b' ->
    gm_expand_bounds g b' v = Ret g' -> g' <> g -> reachable d r t g'
| reach_expand : forall g b v g', reachable d r t g -> request_ok d r b ->
    gm_expand_bounds g b v = Ret g' -> reachable d r t g'
| reach_set : forall g c v g', reachable d r t g -> gm_set g c v = Ret g' -> reachable d r t g'
| reach_track : forall g x, reachable d r t g -> reachable d r t (gm_set_track_changes g x)
| reach_clear : forall g, reachable d r t g -> reachable d r t (gm_clear_changed_cells g)
| reach_add : forall g l, reachable d r t g -> reachable d r t (gm_add_changed_cells g l).

(** The metric corner [p] is the corner of cell number [k] up to one rounding. *)
Definition at_cell (r : f32) (k : Z) (p : f32) : Prop :=
  finite p /\ (Rabs (real p - IZR k * real r) <= bpow radix2 (-24) * (Rabs (IZR k) * real r))%R.

(** [g] is a map with resolution [r] and tile size [t] that covers exactly the cells
    of the world from [cmin cb] up to but not including [cmax cb]. *)
Record covers_cells {A} (d : nat) (r : f32) (t : Z) (g : grid_map A) (cb : cell_bounds) : Prop := {
  cc_resolution : gm_resolution g = r;
  cc_tile_size : gm_tile_size g = t;
  cc_ordered : cb_ordered d cb;
  cc_aligned : tile_aligned t cb;
  cc_near : cb_near (2 ^ 19) cb;
  cc_min : Forall2 (at_cell r) (cmin cb) (bmin (gm_bounds g));
  cc_max : Forall2 (at_cell r) (cmax cb) (bmax (gm_bounds g));
  cc_shape : nd_shape (gm_data g) = map2 Z.sub (cmax cb) (cmin cb);
  cc_storage : storage_ok (gm_data g)
}.

(** The point [p] is the centre of world cell [w] up to 3/20 of a cell. *)
Definition near_cell (r : f32) (w : cell) (p : point) : Prop :=
  Forall2 (fun k x => finite x /\ (Rabs (real x - IZR k * real r) <= 3 / 20 * real r)%R) w p.

(** World cell [w] belongs to the box of cells [cb]. *)
Definition in_box (cb : cell_bounds) (w : cell) : Prop :=
  Forall2 Z.le (cmin cb) w /\ Forall2 Z.lt w (cmax cb).

(** [history g W]: [g] is the result of a sequence of operations on an initially empty
    map, and [W w] is the last value written to world cell [w] during them: by the last
    [set] on the index that then denoted [w], else the default of the expansion that
    first covered [w], else none. *)
Inductive history {A} (d : nat) (r : f32) (t : Z) : grid_map A -> (cell -> option A) -> Prop :=
| hist_new : forall v g W, gm_new r (bounds_empty d) t v = Ret g -> (forall w, W w = None) -> history d r t g W
| hist_expand : forall g W b v g' cb' W', history d r t g W -> request_ok d r b ->
    gm_expand_bounds g b v = Ret g' -> covers_cells d r t g' cb' ->
    (forall w x, W w = Some x -> W' w = Some x) ->
    (forall w, W w = None -> in_box cb' w -> W' w = Some v) ->
    (forall w, W w = None -> ~ in_box cb' w -> W' w = None) -> history d r t g' W'
| hist_set : forall g W c x g' cb W', history d r t g W -> covers_cells d r t g cb ->
    cells_in_isize c -> gm_set g c x = Ret g' ->
    W' (map2 Z.add (cmin cb) c) = Some x -> (forall w, w <> map2 Z.add (cmin cb) c -> W' w = W w) ->
    history d r t g' W'
| hist_track : forall g W x, history d r t g W -> history d r t (gm_set_track_changes g x) W
| hist_clear : forall g W, history d r t g W -> history d r t (gm_clear_changed_cells g) W
| hist_add : forall g W l, history d r t g W -> history d r t (gm_add_changed_cells g l) W.

(** The axis of a requested box on which [p] is a full cell below the upper bound, or in
    the lower quarter of a cell of the world. *)
Definition axis_safe (r p hi : f32) : Prop :=
  (real p + real r <= real hi)%R \/
  exists k, (IZR k * real r <= real p <= (IZR k + / 4) * real r)%R.

(** On every axis on which a ray from [o] to [p] moves, [p] is at least [g] cells away
    from every border between cells of the world. *)
Definition world_clear (g : R) (r : f32) (o p : point) : Prop :=
  forall i k, (i < length p)%nat -> real (nth i o f0) <> real (nth i p f0) ->
    (g * real r <= Rabs (real (nth i p f0) - (IZR k + / 2) * real r))%R.
