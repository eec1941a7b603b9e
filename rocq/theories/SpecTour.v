(** The visualiser in a world with walls. *)
From Coq Require Import ZArith List Reals.
From Verif Require Import Base F32 Arith Geom NoiseModel Kitti Pose Spec SpecMap SpecNoise SpecKitti SpecPose SpecMain SpecMeet SpecNear SpecWorld.
Open Scope R_scope.

(** The frame [f] (sensor and cloud) was taken where [s] says, up to a 128th of a cell per axis; the beams of [s] are
    clear of corners, borders and the limit [m]. *)
Definition taken_at (d : nat) (m r : f32) (s : exact_scan) (f : point * matrix) : Prop :=
  off_by_cells (/ 128) (real r) (map real (fst f)) (fst s) /\
  Forall2 (fun q p => off_by_cells (/ 128) (real r) (map real p) q /\ clear_segment (real m) (world d) (real r) (fst s) q) (snd s) (pc_points (snd f)).

(** Some scan of the tour hits the cell. *)
Definition tour_hits (d : nat) (M r : R) (S : list exact_scan) (w : cell) : Prop := exists s, In s S /\ scan_hits d M r s w.

(** The vehicle stays within 25 m of the start on each axis, and the points within 25 m of the sensor. *)
Definition near_start (s : system) (vs : list oxt) (ms : list matrix) : Prop :=
  forall k v m, nth_error vs k = Some v -> nth_error ms k = Some m ->
    Forall (sized 25) (coords (position s vs k v)) /\ forall p, In p (pc_points m) -> dot3 (triple p) (triple p) <= 25 * 25.
