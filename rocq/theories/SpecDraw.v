(** What the properties of the drawing talk about. *)
From Coq Require Import ZArith List Bool Reals.
From Flocq Require Import Core BinarySingleNaN.
From Verif Require Import Base F32 Arith Geom Kitti Pose Spec SpecPose Draw.
Open Scope R_scope.

Definition fin3 (v : R * R * R) : xreal * xreal * xreal := let '(x, y, z) := v in (Fin x, Fin y, Fin z).
Definition real3 (v : f32 * f32 * f32) : R * R * R := let '(x, y, z) := v in (real x, real y, real z).
Definition finite3 (v : f32 * f32 * f32) : Prop := let '(x, y, z) := v in finite x /\ finite y /\ finite z.

(** A line from [t] exactly to [t] plus [v] up to [e] (on each axis), in the colour [c]. *)
Definition drawn_line (e : R) (t v c : R * R * R) (l : line F32A) : Prop :=
  finite3 (line_from F32A l) /\ real3 (line_from F32A l) = t /\
  finite3 (line_to F32A l) /\ near3 e (real3 (line_to F32A l)) (plus3 t v) /\
  real3 (line_colour F32A l) = c.
(** Three lines of length one: the x axis in red, the y axis in green, the z axis in blue, turned and shifted. *)
Definition marks (e : R) (t : R * R * R) (roll pitch yaw : R) (ls : list (line F32A)) : Prop :=
  Forall2 (fun v l => drawn_line e t (turned roll pitch yaw v) v l) [(1, 0, 0); (0, 1, 0); (0, 0, 1)] ls.

Definition pose_finite (p : pose) : Prop :=
  let '(t, (w, i, j, k)) := p in finite3 t /\ finite w /\ finite i /\ finite j /\ finite k.
