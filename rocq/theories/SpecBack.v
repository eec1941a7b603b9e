(** A ray and the ray back. *)
From Coq Require Import ZArith List Reals.
From Verif Require Import Base F32 Arith Geom Spec.
Open Scope R_scope.

(** The coordinate [x] lies on the border between two cells of side [r], counted from [b]. *)
Definition on_border (b r x : R) : Prop := exists k : Z, x = b + (IZR k + / 2) * r.
(** The segment never crosses borders of two axes at the same place. *)
Definition no_corner (b : list R) (r : R) (o e : list R) : Prop :=
  forall u i j, 0 <= u <= 1 -> (i < length o)%nat -> (j < length o)%nat -> i <> j -> nth i o 0 <> nth i e 0 -> nth j o 0 <> nth j e 0 ->
  on_border (nth i b 0) r (nth i (seg o e u) 0) -> ~ on_border (nth j b 0) r (nth j (seg o e u) 0).
(** The segment nowhere comes within [g] cells of borders of two axes at the same place. *)
Definition no_corner_near (g : R) (b : list R) (r : R) (o e : list R) : Prop :=
  forall u i j k l, 0 <= u <= 1 -> (i < length o)%nat -> (j < length o)%nat -> i <> j -> nth i o 0 <> nth i e 0 -> nth j o 0 <> nth j e 0 ->
  Rabs (nth i (seg o e u) 0 - (nth i b 0 + (IZR k + / 2) * r)) <= g * r ->
  ~ Rabs (nth j (seg o e u) 0 - (nth j b 0 + (IZR l + / 2) * r)) <= g * r.
(** On every axis the point is at least [g] cells away from every border. *)
Definition off_borders (g : R) (b : list R) (r : R) (p : list R) : Prop :=
  forall i k, (i < length p)%nat -> g * r <= Rabs (nth i p 0 - (nth i b 0 + (IZR k + / 2) * r)).
(** No cell near the segment has its centre at a distance from the origin of the ray within [g] cells of [m]. *)
Definition limit_clear (g m : R) (b : list R) (r : R) (o e : list R) : Prop :=
  forall x u, length x = length o -> 0 <= u <= 1 -> in_grown_cell (/ 16) b r x (seg o e u) ->
  dist (cell_centre b r x) o + g * r <= m \/ m + g * r < dist (cell_centre b r x) o.
(** A ray of length [m > 0] at most, whose ends are clear of borders, whose segment is clear of corners, and whose cells are clear of the limit. *)
Definition clear_ray (m : f32) (r : f32) (b o e : point) : Prop :=
  let B := map real b in let O := map real o in let E := map real e in
  ray_short r o e b /\ off_borders (/ 16) B (real r) O /\ off_borders (/ 16) B (real r) E /\ no_corner_near (/ 16) B (real r) O E /\ limit_clear (/ 32) (real m) B (real r) O E.
