(** What the properties of poses and of the whole program talk about. *)
From Coq Require Import ZArith List Bool Reals.
From Flocq Require Import Core BinarySingleNaN.
From Verif Require Import Base F32 Arith Geom Spec.
Open Scope R_scope.

(** ** Rotations *)

(** 3x3 matrices as triples of rows. *)
Definition mat3 : Type := ((R * R * R) * (R * R * R) * (R * R * R))%type.
Definition apply3 (m : mat3) (v : R * R * R) : R * R * R :=
  let '(a, b, c) := m in (dot3 a v, dot3 b v, dot3 c v).
(** Rotation about an axis by an angle. *)
Definition about_x (t : R) : mat3 := ((1, 0, 0), (0, cos t, - sin t), (0, sin t, cos t)).
Definition about_y (t : R) : mat3 := ((cos t, 0, sin t), (0, 1, 0), (- sin t, 0, cos t)).
Definition about_z (t : R) : mat3 := ((cos t, - sin t, 0), (sin t, cos t, 0), (0, 0, 1)).
(** Roll about x first, then pitch about y, then yaw about z. *)
Definition turned (roll pitch yaw : R) (v : R * R * R) : R * R * R :=
  apply3 (about_z yaw) (apply3 (about_y pitch) (apply3 (about_x roll) v)).
Definition plus3 (a b : R * R * R) : R * R * R :=
  let '(a1, a2, a3) := a in let '(b1, b2, b3) := b in (a1 + b1, a2 + b2, a3 + b3).
(** Coordinates that differ by at most [e]. *)
Definition near3 (e : R) (a b : R * R * R) : Prop :=
  let '(a1, a2, a3) := a in let '(b1, b2, b3) := b in
  Rabs (a1 - b1) <= e /\ Rabs (a2 - b2) <= e /\ Rabs (a3 - b3) <= e.

(** Sine and cosine accurate to 2^-24 (one unit in the last place of numbers below one)
    for arguments up to four. *)
Definition trig_accurate (s c : f32 -> f32) : Prop := forall x, finite x -> Rabs (real x) <= 4 ->
  (finite (s x) /\ Rabs (real (s x) - sin (real x)) <= bpow radix2 (-24)) /\
  (finite (c x) /\ Rabs (real (c x) - cos (real x)) <= bpow radix2 (-24)).
(** An angle in radians as it occurs in a record. *)
Definition angle (x : f32) : Prop := finite x /\ Rabs (real x) <= 8.
(** A number of absolute value at most [D]. *)
Definition sized (D : R) (x : f32) : Prop := finite x /\ Rabs (real x) <= D.
