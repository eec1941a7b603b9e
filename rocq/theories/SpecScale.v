(** Lengths measured in two units, one 2^k times the other. *)
From Coq Require Import ZArith List Reals.
From Flocq Require Import Core BinarySingleNaN.
From Verif Require Import Base F32 Geom GridMap NoiseModel Spec.
Open Scope Z_scope.

(** A coordinate or limit that is zero or between 2^-36 and 2^20 in absolute value. *)
Definition usual (x : f32) : Prop :=
  finite x /\ (real x = 0 \/ bpow radix2 (-36) <= Rabs (real x) <= bpow radix2 20)%R.
(** A cell size between 2^-20 and 2^20. *)
Definition usual_size (r : f32) : Prop := finite r /\ (bpow radix2 (-20) <= real r <= bpow radix2 20)%R.

(** [y] is [x] in the other unit. *)
Definition rescaled (k : Z) (x y : f32) : Prop := usual x /\ usual y /\ (real y = real x * bpow radix2 k)%R.
Definition rescaled_size (k : Z) (r s : f32) : Prop := usual_size r /\ usual_size s /\ (real s = real r * bpow radix2 k)%R.

(** A coordinate that is usual in both units. *)
Definition usual_in (k : Z) (x : f32) : Prop :=
  usual x /\ (real x * bpow radix2 k = 0 \/ bpow radix2 (-36) <= Rabs (real x * bpow radix2 k) <= bpow radix2 20)%R.
Definition box_usual_in (k : Z) (b : bounds) : Prop := Forall (usual_in k) (bmin b) /\ Forall (usual_in k) (bmax b).
Definition rescaled_box (k : Z) (b b' : bounds) : Prop :=
  Forall2 (rescaled k) (bmin b) (bmin b') /\ Forall2 (rescaled k) (bmax b) (bmax b').
(** The same map in the other unit: the same cells with the same values. *)
Definition rescaled_map {A} (k : Z) (g g' : grid_map A) : Prop :=
  gm_data g' = gm_data g /\ rescaled_size k (gm_resolution g) (gm_resolution g') /\ rescaled_box k (gm_bounds g) (gm_bounds g') /\
  gm_tile_size g' = gm_tile_size g /\ gm_track_changes g' = gm_track_changes g /\ gm_changed_cells g' = gm_changed_cells g.
(** The same noise model but for the range, which is in the other unit. *)
Definition rescaled_lidar (k : Z) (m m' : lidar) : Prop :=
  hit_logodds m' = hit_logodds m /\ miss_logodds m' = miss_logodds m /\ min_logodds m' = min_logodds m /\ max_logodds m' = max_logodds m /\
  occupied_threshold_logodds m' = occupied_threshold_logodds m /\ rescaled k (max_range m) (max_range m').
Definition rescaled_cloud (k : Z) (c c' : matrix) : Prop := nrows c' = nrows c /\ Forall2 (Forall2 (rescaled k)) (pc_points c) (pc_points c').
(** Both return related results, or both panic, or both go on. *)
Definition alike {A B} (P : A -> B -> Prop) (x : outcome A) (y : outcome B) : Prop :=
  match x, y with
  | Ret a, Ret b => P a b
  | Panic, Panic => True
  | NoFuel, NoFuel => True
  | _, _ => False
  end.
(** Scans, each an origin and a cloud, integrated one after the other. *)
Fixpoint built (fuel : nat) (order_free order_occ : iteration_order) (m : lidar) (g : grid_map f32) (scans : list (point * matrix)) : outcome (grid_map f32) :=
  match scans with
  | [] => Ret g
  | (o, c) :: rest => obind (integrate_point_cloud fuel order_free order_occ m g o c) (fun g1 => built fuel order_free order_occ m g1 rest)
  end.
Definition rescaled_scan (k : Z) (s s' : point * matrix) : Prop := Forall2 (rescaled k) (fst s) (fst s') /\ rescaled_cloud k (snd s) (snd s').
(** A scan of dimension [d]. *)
Definition scan_in (d : nat) (s : point * matrix) : Prop :=
  length (fst s) = d /\ nrows (snd s) = d /\ forall p, In p (pc_points (snd s)) -> length p = d.
