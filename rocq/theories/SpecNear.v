(** Points known up to a small error. *)
From Coq Require Import ZArith List Reals.
From Verif Require Import Base F32 Arith Geom Spec SpecBack.
Open Scope R_scope.

(** Each coordinate is off by at most [s] cells of side [r]. *)
Definition off_by_cells (s r : R) (p q : list R) : Prop := Forall2 (fun x y => Rabs (x - y) <= s * r) p q.
(** The segment ends clear of borders, is clear of corners, and the cells near it are clear of the limit [m]. *)
Definition clear_segment (m : R) (b : list R) (r : R) (o e : list R) : Prop :=
  off_borders (/ 8) b r o /\ off_borders (/ 8) b r e /\ no_corner_near (/ 8) b r o e /\
  forall x u, length x = length o -> 0 <= u <= 1 -> in_grown_cell (/ 8) b r x (seg o e u) ->
  dist (cell_centre b r x) o + / 8 * r <= m \/ m + / 8 * r < dist (cell_centre b r x) o.
