(** C05-C09, C16: conversion between points and cells. *)
From Coq Require Import ZArith List Bool Reals Lra Lia.
From Flocq Require Import Core BinarySingleNaN.
From Verif Require Import Base F32 Arith Geom Spec ConverterProofs Examples
  BoundaryProofs.
Open Scope R_scope.

Theorem C05_round_trip : forall (c : cell) (o : point) (r : f32), res_ok r ->
  length o = length c ->
  Forall (fun x => (Z.abs x <= 2 ^ 20)%Z) c -> Forall (within_cells (2 ^ 20) r) o ->
  cell_from_point F32A (point_from_cell F32A c o r) o r = c.
Proof. exact round_trip. Qed.
Print Assumptions C05_round_trip.

Theorem C05_round_trip_per_axis : forall (c : cell) (o r : point), Forall res_ok r ->
  length o = length c -> length r = length c ->
  Forall (fun x => (Z.abs x <= 2 ^ 20)%Z) c -> Forall2 (within_cells (2 ^ 20)) r o ->
  cell_from_point_n F32A (point_from_cell_n F32A c o r) o r = c.
Proof. exact round_trip_n. Qed.
Print Assumptions C05_round_trip_per_axis.

(** Beyond the range the round trip really fails. *)
Theorem C05_out_of_range_refuted : exists (c : cell) (o : point) (r : f32),
  length o = length c /\ feqb r f1 = true /\
  cell_from_point F32A (point_from_cell F32A c o r) o r <> c.
Proof. exact round_trip_fails. Qed.
Print Assumptions C05_out_of_range_refuted.

Example C05_example : res_ok (f32_lit 1 10) /\
  within_cells (2 ^ 20) (f32_lit 1 10) (f32_lit (-5) 2) /\ (Z.abs (-12345) <= 2 ^ 20)%Z.
Proof. exact (conj res_tenth (conj within_example (proj1 (Z.leb_le (Z.abs (-12345)) (2 ^ 20)) eq_refl))). Qed.

Theorem C06_nearest_cell : forall p o r : f32, res_ok r -> finite p -> finite o ->
  Rabs (real p - real o) <= IZR (2 ^ 26) * real r ->
  let c := cell_coord_from_point_coord F32A p o r in
  Rabs (IZR c * real r + real o - real p)
    <= / 2 * real r + bpow radix2 (-22) * Rabs (real p - real o).
Proof. exact nearest1. Qed.
Print Assumptions C06_nearest_cell.

(** The same, coordinate by coordinate, for points of any dimension. *)
Theorem C06_nearest_cell_point : forall (p o : point) (r : f32), res_ok r -> length p = length o ->
  (forall i, (i < length p)%nat -> finite (nth i p f0) /\ finite (nth i o f0) /\
     Rabs (real (nth i p f0) - real (nth i o f0)) <= IZR (2 ^ 12) * real r) ->
  forall i, (i < length p)%nat ->
  Rabs (IZR (nth i (cell_from_point F32A p o r) 0%Z) * real r + real (nth i o f0) - real (nth i p f0))
    <= (/ 2 + / 1000) * real r.
Proof. exact nearest_point. Qed.
Print Assumptions C06_nearest_cell_point.

(** The centre as computed by [point_from_cell]; near zero, so that its own rounding
    stays within the allowance. *)
Theorem C06_centre : forall (p o : point) (r : f32), res_ok r -> length p = length o ->
  (forall i, (i < length p)%nat -> finite (nth i p f0) /\ finite (nth i o f0) /\
     Rabs (real (nth i p f0) - real (nth i o f0)) <= IZR (2 ^ 11) * real r /\ Rabs (real (nth i o f0)) <= IZR (2 ^ 11) * real r) ->
  let q : point := point_from_cell F32A (cell_from_point F32A p o r) o r in
  length q = length p /\ forall i, (i < length p)%nat ->
  finite (nth i q f0) /\ Rabs (real (nth i q f0) - real (nth i p f0)) <= (/ 2 + / 1000) * real r.
Proof. exact centre_point. Qed.
Print Assumptions C06_centre.

Example C06_example : exists p o r : f32, res_ok r /\ finite p /\ finite o /\
  Rabs (real p - real o) <= IZR (2 ^ 11) * real r /\ Rabs (real o) <= IZR (2 ^ 11) * real r.
Proof. exact nearest_example. Qed.

Theorem C07_monotone : forall p1 p2 o r : f32, fltb f0 r = true -> fleb p1 p2 = true ->
  (cell_coord_from_point_coord F32A p1 o r <= cell_coord_from_point_coord F32A p2 o r)%Z.
Proof. exact monotone1. Qed.
Print Assumptions C07_monotone.

Example C07_example : fltb f0 (f32_lit 1 10) = true /\ fleb fninf (f32_lit 3 2) = true.
Proof. split; vm_compute; reflexivity. Qed.

(** The documented rule fails for boundaries below the offset. *)
Theorem C08_boundary_refuted : exists (p o r : f32) (k : Z),
  finite p /\ finite o /\ res_ok r /\ real p - real o = (IZR k + / 2) * real r /\
  cell_coord_from_point_coord F32A p o r <> (k + 1)%Z.
Proof. exact boundary_fails. Qed.
Print Assumptions C08_boundary_refuted.

(** What the code does instead: ties go away from the offset. *)
Theorem C08_boundary : forall (p o r : f32) (k : Z), finite p -> finite o -> res_ok r ->
  (Z.abs k < 2 ^ 22)%Z ->
  real p - real o = (IZR k + / 2) * real r ->
  generic_format radix2 (SpecFloat.fexp 24 128) (real p - real o) ->
  cell_coord_from_point_coord F32A p o r = if (0 <=? k)%Z then (k + 1)%Z else k.
Proof. exact boundary1. Qed.
Print Assumptions C08_boundary.

Example C08_example : exists p o r : f32, finite p /\ finite o /\ res_ok r /\
  real p - real o = (IZR 7 + / 2) * real r /\
  generic_format radix2 (SpecFloat.fexp 24 128) (real p - real o).
Proof. exact boundary_example. Qed.

(** The condition on [p - o] holds for coordinates on a common grid of powers of two. *)
Theorem C08_grid : forall (p o r : f32) (k e a b : Z), finite p -> finite o -> res_ok r ->
  (Z.abs k < 2 ^ 22)%Z -> real p - real o = (IZR k + / 2) * real r ->
  (-149 <= e)%Z -> real p = IZR a * bpow radix2 e -> real o = IZR b * bpow radix2 e ->
  (Z.abs (a - b) < 2 ^ 24)%Z ->
  cell_coord_from_point_coord F32A p o r = if (0 <=? k)%Z then (k + 1)%Z else k.
Proof. exact boundary_grid. Qed.
Print Assumptions C08_grid.

Example C08_grid_example : exists p o r : f32, finite p /\ finite o /\ res_ok r /\
  real p - real o = (IZR 5 + / 2) * real r /\
  real p = IZR 31 * bpow radix2 (-2) /\ real o = IZR (-2) * bpow radix2 (-2).
Proof. exact boundary_grid_example. Qed.

(** Without it even a boundary above the offset can go to the lower cell ... *)
Theorem C08_above_refuted : exists (p o r : f32) (k : Z),
  finite p /\ finite o /\ res_ok r /\ (0 <= k < 2 ^ 22)%Z /\
  real p - real o = (IZR k + / 2) * real r /\
  cell_coord_from_point_coord F32A p o r = k.
Proof. exact boundary_above_fails. Qed.
Print Assumptions C08_above_refuted.

(** ... but never to another than the two that meet there. *)
Theorem C08_either : forall (p o r : f32) (k : Z), finite p -> finite o -> res_ok r ->
  (Z.abs k < 2 ^ 22)%Z -> real p - real o = (IZR k + / 2) * real r ->
  cell_coord_from_point_coord F32A p o r = k \/
  cell_coord_from_point_coord F32A p o r = (k + 1)%Z.
Proof. exact boundary_either. Qed.
Print Assumptions C08_either.

Example C08_either_example : finite bd_p /\ finite bd_o /\ res_ok bd_r /\
  real bd_p - real bd_o = (IZR 1 + / 2) * real bd_r.
Proof. exact bd_case. Qed.

Theorem C09_total : forall p o r : f32,
  let q := fdiv (fsub p o) r in
  let c := cell_coord_from_point_coord F32A p o r in
  (isize_min <= c <= isize_max)%Z /\
  (is_nan q = true -> c = 0%Z) /\
  (finite q -> Rabs (real q) <= bpow radix2 62 -> Rabs (IZR c - real q) <= / 2) /\
  (fleb (f32_of_Z (2 ^ 63)) q = true -> c = isize_max) /\
  (fleb q (f32_of_Z (- 2 ^ 63)) = true -> c = isize_min).
Proof. exact ccp_total. Qed.
Print Assumptions C09_total.

Theorem C09_coordinates : forall (p o : point) r, length p = length o ->
  length (cell_from_point F32A p o r) = length p /\
  forall i, (i < length p)%nat ->
    nth i (cell_from_point F32A p o r) 0%Z
    = cell_coord_from_point_coord F32A (nth i p f0) (nth i o f0) r.
Proof. exact cell_from_point_coords. Qed.
Print Assumptions C09_coordinates.

Example C09_example : is_nan (fdiv (fsub f0 f0) f0) = true /\
  fleb (f32_of_Z (2 ^ 63)) (fdiv (fsub f1 f0) f0) = true.
Proof. split; vm_compute; reflexivity. Qed.

Theorem C16_point_from_cell_n : forall (c : cell) (o : point) r,
  point_from_cell_n F32A c o (repeat r (length c)) = point_from_cell F32A c o r.
Proof. exact combine_repeat_pfc. Qed.
Print Assumptions C16_point_from_cell_n.

Theorem C16_cell_from_point_n : forall (p o : point) r,
  cell_from_point_n F32A p o (repeat r (length p)) = cell_from_point F32A p o r.
Proof. exact combine_repeat_cfp. Qed.
Print Assumptions C16_cell_from_point_n.

Theorem C16_from_cell_bounds_n : forall (cb : cell_bounds) r, length (cmin cb) = length (cmax cb) ->
  bounds_from_cell_bounds_n cb (repeat r (length (cmin cb))) = bounds_from_cell_bounds cb r.
Proof. exact cb_n_scalar. Qed.
Print Assumptions C16_from_cell_bounds_n.

Theorem C16_from_size_cells_n : forall (size offset : cell) r, length size = length offset ->
  bounds_from_size_cells_n size (repeat r (length offset)) offset
  = bounds_from_size_cells size r offset.
Proof. exact size_n_scalar. Qed.
Print Assumptions C16_from_size_cells_n.

Example C16_example :
  match bounds_from_size_cells_n [3; 4]%Z [f1; f1] [1; -2]%Z with
  | Ret b => map B2SF (bmin b ++ bmax b) = map (fun z => B2SF (f32_of_Z z)) [1; -2; 4; 2]%Z
  | _ => False
  end.
Proof. vm_compute. reflexivity. Qed.
