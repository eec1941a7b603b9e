(** Where the corners of a box lie relative to the cells. *)
From Coq Require Import ZArith List Reals.
From Verif Require Import Base F32 Geom Spec.
Open Scope R_scope.

(** A coordinate is [f] cells away from the centre of cell [n], and not too close to its
    border. *)
Definition off_centre (r : f32) (n : Z) (f : R) (x : f32) : Prop :=
  real x = (IZR n + f) * real r /\ Rabs f < 7 / 16.

(** Along axis [i] the corners of [b] are [f] and [h] cells away from the centres of
    theirs. *)
Definition corners_off (r : f32) (b : bounds) (i : nat) (f h : R) : Prop :=
  (exists n, off_centre r n f (nth i (bmin b) f0)) /\ (exists n, off_centre r n h (nth i (bmax b) f0)).

(** Along axis [j] the box [b'] leaves [b] by at least a cell. *)
Definition leaves (r : f32) (b b' : bounds) (j : nat) : Prop :=
  real (nth j (bmin b') f0) <= real (nth j (bmin b) f0) - real r \/
  real (nth j (bmax b) f0) + real r <= real (nth j (bmax b') f0).
