(** Moving the lower corner of the grid. *)
From Coq Require Import ZArith List Bool Reals.
From Flocq Require Import Core BinarySingleNaN.
From Verif Require Import Base F32 Arith Geom NdArray GridMap Spec.
Open Scope Z_scope.

(** The same place counted from a corner [w] cells further down. *)
Definition shifted (w c : cell) : cell := map2 Z.add c w.
Definition shifted_ray (w : cell) (r : list cell * option cell) : list cell * option cell :=
  (map (shifted w) (fst r), option_map (shifted w) (snd r)).
Definition shifted_sets (w : cell) (s : list cell * list cell) : list cell * list cell :=
  (map (shifted w) (fst s), map (shifted w) (snd s)).
Definition outcome_map {A B} (f : A -> B) (x : outcome A) : outcome B :=
  match x with Ret y => Ret (f y) | Panic => Panic | NoFuel => NoFuel end.

(** The corner [b] is moved down by [w] whole cells of side [r]. *)
Definition moved_down (r : R) (w : cell) (b b' : list R) : Prop :=
  length b' = length b /\ length w = length b /\ forall i, (i < length b)%nat -> (nth i b' 0 = nth i b 0 - IZR (nth i w 0%Z) * r)%R.
Definition above (b p : list R) : Prop := length p = length b /\ forall i, (i < length b)%nat -> (nth i b 0 <= nth i p 0)%R.
Definition small (n : Z) (c : cell) : Prop := Forall (fun z => Z.abs z <= n) c.

(** A whole number of units of 2^q, at most 2^21 of them. *)
Definition units (q : Z) (x : f32) : Prop := finite x /\ exists k, Z.abs k <= 2 ^ 21 /\ real x = (IZR k * bpow radix2 q)%R.
(** A positive number of which the half is such a number as well. *)
Definition even_units (q : Z) (x : f32) : Prop := finite x /\ exists k, 1 <= k <= 2 ^ 20 /\ real x = (IZR (2 * k) * bpow radix2 q)%R.

(** A point every coordinate of which is such a number, above both corners. *)
Definition in_sight (q : Z) (b b' p : point) : Prop :=
  Forall (units q) p /\ above (map real b) (map real p) /\ above (map real b') (map real p).
(** The map [h] holds what [g] holds, its corner [w] cells further down. *)
Definition same_world (w : cell) (g h : grid_map f32) : Prop :=
  gm_resolution h = gm_resolution g /\
  moved_down (real (gm_resolution g)) w (map real (bmin (gm_bounds g))) (map real (bmin (gm_bounds h))) /\
  forall c v, length c = length w -> cells_in_isize c -> cells_in_isize (shifted w c) -> gm_get g c = Ret v -> gm_get h (shifted w c) = Ret v.

(** A corner at most 2^20 units of 2^q away from zero on every axis. *)
Definition near_zero (q : Z) (b : point) : Prop := Forall (fun x => (Rabs (real x) <= IZR (2 ^ 20) * bpow radix2 q)%R) b.
