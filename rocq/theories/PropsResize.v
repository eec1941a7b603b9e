(** C72: the unused resizing of an array. *)
From Coq Require Import ZArith List Bool Reals Lia Lra.
From Flocq Require Import Core BinarySingleNaN.
From Verif Require Import Base F32 Arith Geom NdArray GridMap Resize Spec SpecMap ResizeProofs ExamplesMap ExamplesResize.
Open Scope Z_scope.

(** Between boxes of whole cells values stay at their place in the world; the rest is
    the default. *)
Theorem C72_aligned : forall A d r from to (data : ndarray A) v, (d = 2 \/ d = 3)%nat -> res_ok r -> (bpow radix2 (-21) <= real r)%R ->
  cb_ordered d from -> cb_ordered d to -> cb_near (2 ^ 19) from -> cb_near (2 ^ 19) to ->
  storage_ok data -> nd_shape data = map2 Z.sub (cmax from) (cmin from) ->
  exists a, resized_ndarray data (bounds_from_cell_bounds from r) (bounds_from_cell_bounds to r) r v = Ret a /\
    storage_ok a /\ nd_shape a = map2 Z.sub (cmax to) (cmin to) /\
    (forall w, in_box to w -> in_box from w -> nd_get a (map2 Z.sub w (cmin to)) = nd_get data (map2 Z.sub w (cmin from))) /\
    (forall w, in_box to w -> ~ in_box from w -> nd_get a (map2 Z.sub w (cmin to)) = Ret v).
Proof. exact resize_aligned. Qed.
Print Assumptions C72_aligned.

(** For every map a sequence of operations produces it does what expand_bounds does. *)
Theorem C72_same_as_expand : forall A d r t (g : grid_map A) b v g', map_range d r t -> (bpow radix2 (-21) <= real r)%R ->
  reachable d r t g -> request_ok d r b -> gm_expand_bounds g b v = Ret g' ->
  exists a, resized_ndarray (gm_data g) (gm_bounds g) (gm_bounds g') r v = Ret a /\ nd_shape a = nd_shape (gm_data g') /\
    forall c, in_range (nd_shape a) c -> nd_get a c = nd_get (gm_data g') c.
Proof. exact resize_expand. Qed.
Print Assumptions C72_same_as_expand.

Example C72_example : (res_ok tenth /\ (bpow radix2 (-21) <= real tenth)%R) /\ (cb_ordered 2 rs_from /\ cb_ordered 2 rs_to) /\
  (cb_near (2 ^ 19) rs_from /\ cb_near (2 ^ 19) rs_to) /\ storage_ok rs_data /\ request_ok 2 tenth ex_b1.
Proof. exact (conj (conj (proj1 (proj2 ex_map_range)) tenth_large) (conj rs_ordered (conj rs_near (conj rs_data_ok ex_b1_ok)))). Qed.

(** Not for boxes of whole cells at any distance, neither growing nor shrinking: the floating
    point errors of which the code's comment speaks. *)
Theorem C72_any_distance_refuted : exists r from to (data : ndarray Z) v fresh, res_ok r /\ (bpow radix2 (-21) <= real r)%R /\
  cb_ordered 2 from /\ cb_ordered 2 to /\ cb_near (2 ^ 23) from /\ cb_near (2 ^ 23) to /\
  ndarray_with_bounds r (bounds_from_cell_bounds from r) v = Ret data /\ nd_shape data = map2 Z.sub (cmax from) (cmin from) /\
  ndarray_with_bounds r (bounds_from_cell_bounds to r) v = Ret fresh /\ nd_shape fresh = map2 Z.sub (cmax to) (cmin to) /\
  resized_ndarray data (bounds_from_cell_bounds from r) (bounds_from_cell_bounds to r) r v = Panic /\
  resized_ndarray fresh (bounds_from_cell_bounds to r) (bounds_from_cell_bounds from r) r v = Panic.
Proof. exact resize_panics. Qed.
Print Assumptions C72_any_distance_refuted.

(** Not for boxes off the grid: a value gets into two cells, or the two slices differ in size. *)
Theorem C72_any_box_refuted : exists r from to to' (data a : ndarray Z) v, res_ok r /\ ordered 2 from /\ ordered 2 to /\ ordered 2 to' /\
  ndarray_with_bounds r from v = Ret (mkNd (nd_shape data) (repeat v (length (nd_data data)))) /\
  resized_ndarray data from to r v = Ret a /\ nd_shape data = [2; 1] /\ nd_get data [0; 0] = Ret 4 /\ nd_get data [1; 0] = Ret 5 /\ nd_get a [0; 0] = Ret 5 /\ nd_get a [1; 0] = Ret 5 /\
  resized_ndarray data from to' r v = Panic.
Proof. exact resize_smears. Qed.
Print Assumptions C72_any_box_refuted.

(** Not for every resolution: below the tolerance of the comparison all values are lost. *)
Theorem C72_any_resolution_refuted : exists r cb (data a : ndarray Z) v w, res_ok r /\ cb_ordered 2 cb /\ cb_near (2 ^ 18) cb /\ storage_ok data /\
  nd_shape data = map2 Z.sub (cmax cb) (cmin cb) /\ in_box cb w /\
  resized_ndarray data (bounds_from_cell_bounds cb r) (bounds_from_cell_bounds cb r) r v = Ret a /\
  nd_get data (map2 Z.sub w (cmin cb)) = Ret 5 /\ nd_get a (map2 Z.sub w (cmin cb)) = Ret v /\ v <> 5.
Proof. exact resize_loses. Qed.
Print Assumptions C72_any_resolution_refuted.
