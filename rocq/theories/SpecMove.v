(** The whole scene moved: the sensor, the points and everything else in the world. *)
From Coq Require Import ZArith List Bool Reals.
From Flocq Require Import Core BinarySingleNaN.
From Verif Require Import Base F32 Arith Geom NdArray GridMap NoiseModel Spec SpecMap SpecNoise SpecShift.
Open Scope Z_scope.

(** The point [p'] is [p] moved by [v]. *)
Definition moved_by (v p p' : list R) : Prop :=
  length p' = length p /\ length v = length p /\ forall i, (i < length p)%nat -> (nth i p' 0 = nth i p 0 + nth i v 0)%R.
(** [K] whole cells of side [r]. *)
Definition cells_of (r : R) (K : cell) : list R := map (fun k => IZR k * r)%R K.

(** A scan, its sensor and all its points, moved by [v]. *)
Definition moved_scan (v : list R) (o : point) (cloud : matrix) (o' : point) (cloud' : matrix) : Prop :=
  moved_by v (map real o) (map real o') /\ Forall2 (fun p p' => moved_by v (map real p) (map real p')) (pc_points cloud) (pc_points cloud').
(** Every coordinate of the scan is a multiple of 2^q, and no point is below the corner [b]. *)
Definition in_view (q : Z) (b : point) (o : point) (cloud : matrix) : Prop :=
  forall p, p = o \/ In p (pc_points cloud) -> Forall (units q) p /\ above (map real b) (map real p).

(** The map [h] says at every place what [g] says [K] cells before it; outside of a map everything is unknown. *)
Definition same_elsewhere (d : nat) (r : f32) (t : Z) (K : cell) (g h : grid_map f32) : Prop :=
  exists cb cb', covers_cells d r t g cb /\ covers_cells d r t h cb' /\
  forall w x, length w = d -> (world_value g cb f0 w x <-> world_value h cb' f0 (shifted K w) x).

(** Two maps made from the same scans, those of the second moved by [K] cells; the orders of iteration may differ. *)
Inductive moved_history (d : nat) (r : f32) (t q : Z) (m : lidar) (K : cell) : grid_map f32 -> grid_map f32 -> Prop :=
| moved_new : forall g, gm_new r (bounds_empty d) t f0 = Ret g -> moved_history d r t q m K g g
| moved_next : forall g h fuel of oo of' oo' o cloud o' cloud' g' h', moved_history d r t q m K g h -> Z.of_nat fuel <= 2 ^ 61 ->
    is_order of -> is_order oo -> is_order of' -> is_order oo' ->
    moved_scan (cells_of (real r) K) o cloud o' cloud' -> request_ok d r (pc_bounds cloud) -> request_ok d r (pc_bounds cloud') ->
    integrate_point_cloud fuel of oo m g o cloud = Ret g' -> integrate_point_cloud fuel of' oo' m h o' cloud' = Ret h' ->
    near_zero q (bmin (gm_bounds g')) -> near_zero q (bmin (gm_bounds h')) -> in_view q (bmin (gm_bounds g')) o cloud -> in_view q (bmin (gm_bounds h')) o' cloud' ->
    moved_history d r t q m K g' h'.
