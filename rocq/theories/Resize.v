(** Model of _resized_ndarray2 and _resized_ndarray3 in src/map/grid_map.rs, which
    nothing calls ("unused due to the floating point errors"). *)
From Coq Require Import ZArith List Bool.
From Flocq Require Import Core BinarySingleNaN.
From Verif Require Import Base F32 Arith Geom NdArray GridMap.
Open Scope Z_scope.

(** src/map/grid_map.rs:343-376 (2D) and 379-415 (3D); the two are textually the
    same up to the number of axes. *)
Definition resized_ndarray {A} (data : ndarray A) (from_bounds to_bounds : bounds) (resolution : f32)
  (default_value : A) : outcome (ndarray A) :=
  do to_data <- ndarray_with_bounds resolution to_bounds default_value;
  let overlapping_bounds := bounds_overlapping from_bounds to_bounds in
  if bounds_eqb overlapping_bounds (bounds_empty (length (bmin from_bounds))) then Ret to_data
  else
    let from_cell_min := cell_from_point F32A (bmin overlapping_bounds) (bmin from_bounds) resolution in
    let from_cell_max := cell_from_point F32A (bmax overlapping_bounds) (bmin from_bounds) resolution in
    let to_cell_min := cell_from_point F32A (bmin overlapping_bounds) (bmin to_bounds) resolution in
    let to_cell_max := cell_from_point F32A (bmax overlapping_bounds) (bmin to_bounds) resolution in
    nd_slice_assign to_data data to_cell_min to_cell_max from_cell_min from_cell_max.
