(** Model of src/map/grid_map.rs. *)
From Coq Require Import ZArith List Bool.
From Flocq Require Import Core BinarySingleNaN.
From Verif Require Import Base F32 Arith Geom NdArray.
Open Scope Z_scope.

(** src/geom/cell.rs:34-43 to_ndindex: the isize coordinates reinterpreted as usize. *)
Definition to_ndindex (c : cell) : list Z := map usize_of_isize c.

(** src/map/grid_map.rs:72-84 GridMapN *)
Record grid_map (A : Type) : Type := mkGrid {
  gm_data : ndarray A;
  gm_resolution : f32;
  gm_bounds : bounds;
  gm_tile_size : Z;               (* usize *)
  gm_track_changes : bool;
  gm_changed_cells : list cell
}.
Arguments mkGrid {A} _ _ _ _ _ _.
Arguments gm_data {A} _.
Arguments gm_resolution {A} _.
Arguments gm_bounds {A} _.
Arguments gm_tile_size {A} _.
Arguments gm_track_changes {A} _.
Arguments gm_changed_cells {A} _.

(** Product of an isize iterator, overflow panics (grid_map.rs:337). *)
Definition isize_product (l : list Z) : outcome Z :=
  ofold (fun acc x => isz (acc * x)) 1 l.

Section WithElt.
Context {A : Type}.

(** src/map/grid_map.rs:322-340 ndarray_with_bounds.  [vec_size as usize] of a
    negative product is at least 2^63 and makes the allocation panic ("capacity
    overflow").  Memory exhaustion is not modelled. *)
Definition ndarray_with_bounds (resolution : f32) (b : bounds) (default_value : A)
  : outcome (ndarray A) :=
  let size_cells := cell_from_point F32A (bmax b) (bmin b) resolution in
  do vec_size <- isize_product size_cells;
  do _ <- oassert (0 <=? vec_size);
  nd_from_shape_vec (to_ndindex size_cells) (repeat default_value (Z.to_nat vec_size)).

(** src/map/grid_map.rs:21-22 *)
Definition DEFAULT_RESOLUTION : f32 := f32_lit 1 10.
Definition DEFAULT_TILE_SIZE : Z := 100.

(** src/map/grid_map.rs:96-105 GridMapN::new *)
Definition gm_new (resolution : f32) (b : bounds) (tile_size : Z) (default_value : A)
  : outcome (grid_map A) :=
  do data <- ndarray_with_bounds resolution b default_value;
  Ret (mkGrid data resolution b tile_size false []).

(** src/map/grid_map.rs:107-117 GridMapN::default in dimension d *)
Definition gm_default (d : nat) : outcome (grid_map A) :=
  do data <- nd_from_shape_vec (repeat 0 d) [];
  Ret (mkGrid data DEFAULT_RESOLUTION (bounds_empty d) DEFAULT_TILE_SIZE false []).

(** src/map/grid_map.rs:120-134 GridMapN::from_ndarray *)
Definition gm_from_ndarray (a : ndarray A) (resolution : f32) (b : bounds) (tile_size : Z)
  : grid_map A := mkGrid a resolution b tile_size false [].

(** src/map/grid_map.rs:148-150 get *)
Definition gm_get (g : grid_map A) (c : cell) : outcome A := nd_get (gm_data g) (to_ndindex c).

(** src/map/grid_map.rs:153-155 set *)
Definition gm_set (g : grid_map A) (c : cell) (v : A) : outcome (grid_map A) :=
  do data <- nd_set (gm_data g) (to_ndindex c) v;
  Ret (mkGrid data (gm_resolution g) (gm_bounds g) (gm_tile_size g)
              (gm_track_changes g) (gm_changed_cells g)).

(** src/map/grid_map.rs:168-170 point_from_cell *)
Definition gm_point_from_cell (g : grid_map A) (c : cell) : point :=
  point_from_cell F32A c (bmin (gm_bounds g)) (gm_resolution g).

(** src/map/grid_map.rs:173-175 cell_from_point *)
Definition gm_cell_from_point (g : grid_map A) (p : point) : cell :=
  cell_from_point F32A p (bmin (gm_bounds g)) (gm_resolution g).

(** src/map/grid_map.rs:183-185 set_track_changes *)
Definition gm_set_track_changes (g : grid_map A) (value : bool) : grid_map A :=
  mkGrid (gm_data g) (gm_resolution g) (gm_bounds g) (gm_tile_size g) value (gm_changed_cells g).

(** src/map/grid_map.rs:193-195 clear_changed_cells *)
Definition gm_clear_changed_cells (g : grid_map A) : grid_map A :=
  mkGrid (gm_data g) (gm_resolution g) (gm_bounds g) (gm_tile_size g) (gm_track_changes g) [].

(** src/map/grid_map.rs:198-200 add_changed_cells *)
Definition gm_add_changed_cells (g : grid_map A) (cells : list cell) : grid_map A :=
  mkGrid (gm_data g) (gm_resolution g) (gm_bounds g) (gm_tile_size g) (gm_track_changes g)
         (gm_changed_cells g ++ cells).

(** src/map/grid_map.rs:211-247 (2D) and 258-297 (3D) expand_bounds.  The two are
    textually the same up to the number of axes; both assert the offset on the
    first two axes only. *)
Definition gm_expand_bounds (g : grid_map A) (b : bounds) (default_value : A)
  : outcome (grid_map A) :=
  let resolution := gm_resolution g in
  do db <- bounds_discretized b resolution true;
  let new_bounds0 := bounds_enclosing (gm_bounds g) db in
  do new_cell_bounds <- cb_discretized (cb_from_bounds new_bounds0 resolution) (gm_tile_size g);
  let new_bounds := bounds_from_cell_bounds new_cell_bounds resolution in
  let cb := cb_from_bounds (gm_bounds g) resolution in
  if cb_eqb new_cell_bounds cb then Ret g
  else
    do to_data <- ndarray_with_bounds resolution new_bounds default_value;
    let d := length (bmin (gm_bounds g)) in
    do to_data' <-
      (if bounds_eqb (gm_bounds g) (bounds_empty d) then Ret to_data
       else
         do offset <- cell_sub (cmin cb) (cmin new_cell_bounds);
         do cells_size <- cell_sub (cmax cb) (cmin cb);
         do _ <- oassert (forallb (fun o => 0 <=? o) (firstn 2 offset));
         do stop <- cell_add cells_size offset;
         nd_slice_assign to_data (gm_data g) offset stop (repeat 0 d) cells_size);
    Ret (mkGrid to_data' resolution new_bounds (gm_tile_size g)
                (gm_track_changes g) (gm_changed_cells g)).

End WithElt.
