(** Beams as segments of real numbers. *)
From Coq Require Import ZArith List Reals.
From Verif Require Import Base Geom Spec.
Open Scope R_scope.

(** The segment meets the cell, border included. *)
Definition meets (b : list R) (r : R) (o e : list R) (x : cell) : Prop :=
  length x = length o /\ exists u, 0 <= u <= 1 /\ in_closed_cell b r x (seg o e u).
(** A cell on the way, neither the first nor the last, with its centre farther than [m] from the origin. *)
Definition too_long (m : R) (b : list R) (r : R) (o e : list R) (y : cell) : Prop :=
  meets b r o e y /\ y <> nearest_cell b r o /\ y <> nearest_cell b r e /\ m < dist (cell_centre b r y) o.
(** The beam passes a cell that it meets, other than the last, unless that or an earlier cell is too far. *)
Definition beam_passes (m : R) (b : list R) (r : R) (o e : list R) (x : cell) : Prop :=
  meets b r o e x /\ x <> nearest_cell b r e /\
  forall y, too_long m b r o e y -> (manhattan (nearest_cell b r o) x < manhattan (nearest_cell b r o) y)%Z.
(** The beam arrives unless a cell on the way is too far. *)
Definition beam_arrives (m : R) (b : list R) (r : R) (o e : list R) : Prop := forall y, ~ too_long m b r o e y.
