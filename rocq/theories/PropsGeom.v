(** C10-C15, C17-C19, C67, C68: boxes of points and cells, point clouds. *)
From Coq Require Import ZArith List Bool Reals Lra Lia.
From Flocq Require Import Core BinarySingleNaN.
From Verif Require Import Base F32 Arith Geom Spec SpecMap GeomProofs BoundsProofs CloudProofs TransformProofs ApproxProofs AlignProofs Examples ExamplesGeom.
Open Scope Z_scope.

Theorem C10_bounds_new : forall (mn mx : point) b, length mn = length mx ->
  (bounds_new mn mx = Ret b <-> Forall2 fle mn mx /\ b = mkBounds mn mx).
Proof. exact bounds_new_iff. Qed.
Print Assumptions C10_bounds_new.

Theorem C10_bounds_new_panics : forall mn mx : point, length mn = length mx ->
  (bounds_new mn mx = Panic <-> ~ Forall2 fle mn mx).
Proof. exact bounds_new_panic. Qed.
Print Assumptions C10_bounds_new_panics.

Theorem C10_bounds_new_nan : forall mn mx : point, length mn = length mx ->
  Exists (fun x => is_nan x = true) (mn ++ mx) -> bounds_new mn mx = Panic.
Proof. exact bounds_new_nan. Qed.
Print Assumptions C10_bounds_new_nan.

Theorem C10_cell_bounds_new : forall (mn mx : cell) b, length mn = length mx ->
  (cb_new mn mx = Ret b <-> Forall2 Z.le mn mx /\ b = mkCB mn mx).
Proof. exact cb_new_iff. Qed.
Print Assumptions C10_cell_bounds_new.

Theorem C10_cell_bounds_new_panics : forall mn mx : cell, length mn = length mx ->
  (cb_new mn mx = Panic <-> ~ Forall2 Z.le mn mx).
Proof. exact cb_new_panic. Qed.
Print Assumptions C10_cell_bounds_new_panics.

Example C10_example : bounds_new [f0; fm1] [f1; fhalf] = Ret (mkBounds [f0; fm1] [f1; fhalf]) /\
  bounds_new [f0; fnan] [f1; f1] = Panic /\ cb_new [-1; 2] [3; 2] = Ret (mkCB [-1; 2] [3; 2]) /\
  cb_new [0; 3] [1; 2] = Panic.
Proof. repeat split. Qed.

(** When it returns, exactly the surrounding multiples are returned. *)
Theorem C11_discretized : forall cb t cb', 0 < t <= isize_max ->
  cells_in_isize (cmin cb) -> cells_in_isize (cmax cb) ->
  (cb_discretized cb t = Ret cb' <->
   Forall2 (tile_below t) (cmin cb) (cmin cb') /\ Forall2 (tile_above t) (cmax cb) (cmax cb') /\
   cells_in_isize (cmin cb') /\ cells_in_isize (cmax cb')).
Proof. exact cb_discretized_iff. Qed.
Print Assumptions C11_discretized.

(** It returns when there is room for one tile at each end of isize. *)
Theorem C11_discretized_returns : forall cb t, 0 < t ->
  Forall (fun x => isize_min + t <= x <= isize_max - t) (cmin cb ++ cmax cb) ->
  exists cb', cb_discretized cb t = Ret cb'.
Proof. exact cb_discretized_ok. Qed.
Print Assumptions C11_discretized_returns.

Theorem C11_discretized_least : forall cb t cb' mn mx, 0 < t <= isize_max ->
  cells_in_isize (cmin cb) -> cells_in_isize (cmax cb) -> cb_discretized cb t = Ret cb' ->
  Forall2 Z.le mn (cmin cb) -> Forall2 Z.le (cmax cb) mx ->
  Forall (fun x => (t | x)) mn -> Forall (fun x => (t | x)) mx ->
  Forall2 Z.le mn (cmin cb') /\ Forall2 Z.le (cmax cb') mx.
Proof. exact cb_discretized_least. Qed.
Print Assumptions C11_discretized_least.

Theorem C11_discretized_idempotent : forall cb t cb', 0 < t <= isize_max ->
  cells_in_isize (cmin cb) -> cells_in_isize (cmax cb) ->
  cb_discretized cb t = Ret cb' -> cb_discretized cb' t = Ret cb'.
Proof. exact cb_discretized_idem. Qed.
Print Assumptions C11_discretized_idempotent.

Theorem C11_tile_size_zero : forall cb, cmin cb <> [] -> cb_discretized cb 0 = Panic.
Proof. exact cb_discretized_zero. Qed.
Print Assumptions C11_tile_size_zero.

(** The tile size is a usize, used as an isize: beyond isize it is taken for a negative one, and the box that comes
    out need not contain the original. *)
Theorem C11_huge_tiles_refuted : exists cb t cb', isize_max < t < 2 ^ 64 /\ Forall2 Z.le (cmin cb) (cmax cb) /\
  cells_in_isize (cmin cb) /\ cells_in_isize (cmax cb) /\ cb_discretized cb t = Ret cb' /\ ~ Forall2 Z.le (cmax cb) (cmax cb').
Proof. exact cb_discretized_huge. Qed.
Print Assumptions C11_huge_tiles_refuted.

Example C11_example : cb_discretized (mkCB [-7; 4] [-2; 9]) 4 = Ret (mkCB [-8; 4] [0; 12]).
Proof. reflexivity. Qed.

Theorem C12_discretized : forall d b r expand, finite r -> (0 < real r)%R -> ordered d b ->
  exists b', bounds_discretized b r expand = Ret b' /\ ordered d b' /\ sub_box b b' /\
    Forall2 (fun v v' => fle (fsub v r) v') (bmin b) (bmin b') /\
    Forall2 (fun v v' => fle v' (fadd v r)) (bmax b) (bmax b').
Proof. exact bounds_discretized_spec. Qed.
Print Assumptions C12_discretized.

Example C12_example : (finite (f32_lit 1 10) /\ (0 < real (f32_lit 1 10))%R) /\ ordered 2 disc_box.
Proof. exact (conj tenth_pos disc_box_ordered). Qed.

Theorem C12_aligned : forall d b r expand b', res_ok r -> request_ok d r b ->
  bounds_discretized b r expand = Ret b' ->
  Forall (on_grid r) (bmin b') /\ Forall (on_grid r) (bmax b') /\
  (expand = true -> Forall2 (next_corner r) (bmax b) (bmax b')).
Proof. exact discretized_aligned. Qed.
Print Assumptions C12_aligned.

Example C12_aligned_example : res_ok (f32_lit 1 10) /\ request_ok 2 (f32_lit 1 10) disc_box.
Proof. exact disc_box_request. Qed.

Theorem C13_enclosing : forall d a b, ordered d a -> ordered d b -> ~ is_zero_box a ->
  let e := bounds_enclosing a b in
  ordered d e /\ sub_box a e /\ sub_box b e /\
  (forall c, sub_box a c -> sub_box b c -> sub_box e c).
Proof. exact enclosing_lub. Qed.
Print Assumptions C13_enclosing.

Theorem C13_enclosing_of_empty : forall d a b, length (bmin a) = d -> length (bmax a) = d ->
  is_zero_box a -> bounds_enclosing a b = b.
Proof. exact enclosing_empty. Qed.
Print Assumptions C13_enclosing_of_empty.

(** Symmetry fails: an empty argument is not ignored. *)
Theorem C13_enclosing_symmetric_refuted : exists a b, ordered 2 a /\ ordered 2 b /\ is_zero_box b /\
  bounds_eqb (bounds_enclosing a b) (bounds_enclosing b a) = false.
Proof. exact enclosing_asymmetric. Qed.
Print Assumptions C13_enclosing_symmetric_refuted.

Example C13_example : ordered 2 half_box /\ ordered 2 unit_box /\ ~ is_zero_box half_box.
Proof. exact (conj half_box_ordered (conj unit_box_ordered half_box_nonzero)). Qed.

Theorem C14_overlapping : forall d a b, ordered d a -> ordered d b ->
  let o := bounds_overlapping a b in
  ((exists i, (i < d)%nat /\ thin_overlap a b i) -> o = bounds_empty d) /\
  ((forall i, (i < d)%nat -> ~ thin_overlap a b i) ->
     ordered d o /\ sub_box o a /\ sub_box o b /\ (forall p, inside o p <-> inside a p /\ inside b p)).
Proof. exact overlapping_spec. Qed.
Print Assumptions C14_overlapping.

(** The tolerance in terms of real numbers. *)
Theorem C14_clear_overlap : forall d a b, ordered d a -> ordered d b ->
  (forall i, (i < d)%nat -> forall lo hi,
     (lo = nth i (bmin a) f0 \/ lo = nth i (bmin b) f0) ->
     (hi = nth i (bmax a) f0 \/ hi = nth i (bmax b) f0) -> clearly_below lo hi) ->
  forall p, inside (bounds_overlapping a b) p <-> inside a p /\ inside b p.
Proof. exact overlapping_clear. Qed.
Print Assumptions C14_clear_overlap.

(** Containment without that exception is false: touching boxes give the box at
    the coordinate origin, which lies in neither. *)
Theorem C14_always_contained_refuted : exists a b, ordered 2 a /\ ordered 2 b /\
  (exists p, inside a p /\ inside b p) /\ ~ sub_box (bounds_overlapping a b) a.
Proof. exact overlapping_not_contained. Qed.
Print Assumptions C14_always_contained_refuted.

Example C14_example : ordered 2 unit_box /\ ordered 2 half_box /\
  (forall i, (i < 2)%nat -> forall lo hi,
     (lo = nth i (bmin unit_box) f0 \/ lo = nth i (bmin half_box) f0) ->
     (hi = nth i (bmax unit_box) f0 \/ hi = nth i (bmax half_box) f0) -> clearly_below lo hi).
Proof. exact (conj unit_box_ordered (conj half_box_ordered clear_example)). Qed.

Theorem C15_round_trip : forall d cb r, res_ok r -> length (cmin cb) = d -> length (cmax cb) = d ->
  Forall (fun x => Z.abs x <= 2 ^ 20) (cmin cb) -> Forall (fun x => Z.abs x <= 2 ^ 20) (cmax cb) ->
  cb_from_bounds (bounds_from_cell_bounds cb r) r = cb.
Proof. exact cell_bounds_round_trip. Qed.
Print Assumptions C15_round_trip.

Theorem C15_span : forall d cb r, res_ok r -> length (cmin cb) = d -> length (cmax cb) = d ->
  Forall (fun x => Z.abs x <= 2 ^ 20) (cmin cb) -> Forall (fun x => Z.abs x <= 2 ^ 20) (cmax cb) ->
  let b := bounds_from_cell_bounds cb r in
  cell_from_point F32A (bmax b) (bmin b) r = map2 Z.sub (cmax cb) (cmin cb).
Proof. exact span_cells. Qed.
Print Assumptions C15_span.

(** Boxes made from a size and an offset cover exactly these cells. *)
Theorem C15_from_size : forall d (size offset : cell) r, res_ok r -> length size = d -> length offset = d ->
  Forall (fun x => Z.abs x <= 2 ^ 20) offset -> Forall (fun x => Z.abs x <= 2 ^ 20) (map2 Z.add size offset) ->
  exists b, bounds_from_size_cells size r offset = Ret b /\
    cb_from_bounds b r = mkCB offset (map2 Z.add size offset) /\ cell_from_point F32A (bmax b) (bmin b) r = size.
Proof. exact from_size_box. Qed.
Print Assumptions C15_from_size.

Theorem C15_from_size_per_axis : forall d (size offset : cell) (r : point), Forall res_ok r -> length r = d ->
  length size = d -> length offset = d ->
  Forall (fun x => Z.abs x <= 2 ^ 20) offset -> Forall (fun x => Z.abs x <= 2 ^ 20) (map2 Z.add size offset) ->
  exists b, bounds_from_size_cells_n size r offset = Ret b /\
    cell_from_point_n F32A (bmin b) (origin d) r = offset /\ cell_from_point_n F32A (bmax b) (origin d) r = map2 Z.add size offset.
Proof. exact from_size_box_n. Qed.
Print Assumptions C15_from_size_per_axis.

Example C15_example : res_ok (f32_lit 1 10) /\
  Forall (fun x => Z.abs x <= 2 ^ 20) [-1000; 77] /\ Forall (fun x => Z.abs x <= 2 ^ 20) [5; 1048576].
Proof. split. exact res_tenth. split; repeat constructor; discriminate. Qed.

Theorem C17_points_kept : forall d (pts : list point), Forall (fun p => length p = d) pts ->
  exists m, pc_from_points d pts = Ret m /\ pc_points m = pts /\ pc_num_points m = length pts /\
    nrows m = d /\ matrix_ok m.
Proof. exact from_points_points. Qed.
Print Assumptions C17_points_kept.

Example C17_example : Forall (fun p => length p = 3%nat) cloud3.
Proof. exact cloud3_lengths. Qed.

Theorem C18_bounds : forall m, matrix_ok m ->
  let b := pc_bounds m in
  ordered (nrows m) b /\ inside b (origin (nrows m)) /\
  (forall p, In p (pc_points m) -> covers b p) /\
  (forall c, inside c (origin (nrows m)) -> (forall p, In p (pc_points m) -> covers c p) -> sub_box b c) /\
  bounds_new (bmin b) (bmax b) = Ret b.
Proof. exact pc_bounds_spec. Qed.
Print Assumptions C18_bounds.

Example C18_example : exists m, pc_from_points 3 cloud3 = Ret m /\ matrix_ok m /\
  bounds_eqb (pc_bounds m) (mkBounds [f0; f32_lit (-2) 1; fm1] [f1; finf; f32_lit 3 1]) = true.
Proof. eexists. split; [reflexivity|]. split; vm_compute; reflexivity. Qed.

Theorem C19_transform_points : forall mat m, matrix_ok m -> length mat = S (nrows m) ->
  matrix_ok (pc_transform mat m) /\ pc_num_points (pc_transform mat m) = pc_num_points m /\
  nrows (pc_transform mat m) = nrows m /\
  pc_points (pc_transform mat m) = map (transform_col F32A mat) (pc_points m).
Proof. exact transform_points. Qed.
Print Assumptions C19_transform_points.

Theorem C19_identity : forall m, matrix_ok m -> nrows m = 3%nat -> Forall finite (mdata m) ->
  Forall2 (fun p q => point_eqb p q = true) (pc_points (pc_transform identity4 m)) (pc_points m).
Proof. exact identity_cloud. Qed.
Print Assumptions C19_identity.

Theorem C19_rigid_distance : forall a b c t p q, rigid a b c -> exists p' q',
  transform_col RealA (homogeneous a b c t) (vec3 p) = vec3 p' /\
  transform_col RealA (homogeneous a b c t) (vec3 q) = vec3 q' /\ dist2 p' q' = dist2 p q.
Proof. exact rigid_distance. Qed.
Print Assumptions C19_rigid_distance.

Theorem C19_rigid_inverse : forall a b c t p, rigid a b c ->
  let '(a1, a2, a3) := a in let '(b1, b2, b3) := b in let '(c1, c2, c3) := c in
  transform_col RealA (homogeneous (a1, b1, c1) (a2, b2, c2) (a3, b3, c3)
     (- dot3 (a1, b1, c1) t, - dot3 (a2, b2, c2) t, - dot3 (a3, b3, c3) t)%R)
    (transform_col RealA (homogeneous a b c t) (vec3 p)) = vec3 p.
Proof. exact rigid_inverse. Qed.
Print Assumptions C19_rigid_inverse.

Example C19_example : (matrix_ok matrix3 /\ nrows matrix3 = 3%nat /\ Forall finite (mdata matrix3)) /\
  rigid (0, -1, 0)%R (1, 0, 0)%R (0, 0, 1)%R.
Proof. exact (conj matrix3_ok rigid_example). Qed.

Theorem C67_transform_error : forall r1 r2 r3 r4 m, matrix_ok m -> nrows m = 3%nat ->
  Forall moderate (mdata m) ->
  Forall (fun row => length row = 4%nat /\ Forall moderate row) [r1; r2; r3] ->
  Forall2 (fun p q => exists v1 v2 v3, q = [v1; v2; v3] /\
      near_affine r1 p v1 /\ near_affine r2 p v2 /\ near_affine r3 p v3)
    (pc_points m) (pc_points (pc_transform [r1; r2; r3; r4] m)).
Proof. exact transform_error. Qed.
Print Assumptions C67_transform_error.

Theorem C67_distances : forall r1 r2 r3 r4 d D m i j p q p' q',
  matrix_ok m -> nrows m = 3%nat ->
  Forall (fun row => length row = 4%nat /\ Forall moderate row) [r1; r2; r3] ->
  Forall moderate (mdata m) -> Forall (fun x => Rabs (real x) <= D)%R (mdata m) ->
  Forall (fun row => Rabs (real (nth 3 row f0)) <= D)%R [r1; r2; r3] ->
  (0 <= d <= bpow radix2 (-10))%R -> near_rigid d (triple r1) (triple r2) (triple r3) ->
  nth_error (pc_points m) i = Some p -> nth_error (pc_points m) j = Some q ->
  nth_error (pc_points (pc_transform [r1; r2; r3; r4] m)) i = Some p' ->
  nth_error (pc_points (pc_transform [r1; r2; r3; r4] m)) j = Some q' ->
  (Rabs (sqrt (dist2 (triple p') (triple q')) - sqrt (dist2 (triple p) (triple q))) <=
    3 * d * sqrt (dist2 (triple p) (triple q)) + 72 * bpow radix2 (-24) * D + bpow radix2 (-140))%R.
Proof. exact transform_distances. Qed.
Print Assumptions C67_distances.

Example C67_example : (matrix_ok matrix3 /\ nrows matrix3 = 3%nat /\ Forall moderate (mdata matrix3)) /\
  Forall (fun row => length row = 4%nat /\ Forall moderate row) [turn1; turn2; turn3] /\
  near_rigid (bpow radix2 (-20)) (triple turn1) (triple turn2) (triple turn3) /\
  (Forall (fun x => Rabs (real x) <= 12)%R (mdata matrix3) /\
   Forall (fun row => Rabs (real (nth 3 row f0)) <= 12)%R [turn1; turn2; turn3]).
Proof.
  exact (conj (conj (proj1 matrix3_ok) (conj (proj1 (proj2 matrix3_ok)) matrix3_moderate))
    (conj turn_rows (conj turn_near_rigid turn_small))).
Qed.

Theorem C68_relative_sym : forall e m a b, bounds_relative_eq e m a b = bounds_relative_eq e m b a.
Proof. exact bounds_relative_sym. Qed.
Print Assumptions C68_relative_sym.

Theorem C68_abs_diff_sym : forall e a b, bounds_abs_diff_eq e a b = bounds_abs_diff_eq e b a.
Proof. exact bounds_abs_diff_sym. Qed.
Print Assumptions C68_abs_diff_sym.

Theorem C68_relative_refl : forall e m b,
  bounds_relative_eq e m b b = true <-> Forall (fun x => is_nan x = false) (bmin b ++ bmax b).
Proof. exact bounds_relative_refl. Qed.
Print Assumptions C68_relative_refl.

Theorem C68_abs_diff_refl : forall e b, fle f0 e ->
  (bounds_abs_diff_eq e b b = true <-> Forall finite (bmin b ++ bmax b)).
Proof. exact bounds_abs_diff_refl. Qed.
Print Assumptions C68_abs_diff_refl.

Theorem C68_eq_relative : forall e m a b, bounds_eqb a b = true -> bounds_relative_eq e m a b = true.
Proof. exact eq_relative. Qed.
Print Assumptions C68_eq_relative.

Theorem C68_default_tolerance : forall a b, length (bmin a) = length (bmin b) -> length (bmax a) = length (bmax b) ->
  Forall finite (bmin a ++ bmax a) -> Forall finite (bmin b ++ bmax b) ->
  (Forall2 (within_rel (bpow radix2 (-23))) (bmin a) (bmin b) /\
   Forall2 (within_rel (bpow radix2 (-23))) (bmax a) (bmax b) ->
   bounds_relative_eq feps feps a b = true) /\
  (bounds_relative_eq feps feps a b = true ->
   Forall2 (within_rel (bpow radix2 (-23) + bpow radix2 (-46))) (bmin a) (bmin b) /\
   Forall2 (within_rel (bpow radix2 (-23) + bpow radix2 (-46))) (bmax a) (bmax b)).
Proof. exact bounds_default_tolerance. Qed.
Print Assumptions C68_default_tolerance.

(** ... exactly, where one of the two coordinates is at least one. *)
Theorem C68_exact : forall a b, Forall finite (bmin a ++ bmax a) -> Forall finite (bmin b ++ bmax b) ->
  Forall2 (fun x y => (1 <= Rmax (Rabs (real x)) (Rabs (real y)))%R) (bmin a ++ bmax a) (bmin b ++ bmax b) -> length (bmin a) = length (bmin b) ->
  (bounds_relative_eq feps feps a b = true <->
   Forall2 (within_rel (bpow radix2 (-23))) (bmin a ++ bmax a) (bmin b ++ bmax b)).
Proof. exact bounds_tolerance_exact. Qed.
Print Assumptions C68_exact.

Theorem C68_not_transitive : exists a b c, Forall finite (bmin a ++ bmax a) /\ length (bmin a) = 3%nat /\
  bounds_relative_eq feps feps a b = true /\ bounds_relative_eq feps feps b c = true /\
  bounds_relative_eq feps feps a c = false.
Proof. exact relative_not_transitive. Qed.
Print Assumptions C68_not_transitive.

(** No coordinate of boxes that are alike is NaN, and one that is infinite is the same in both, whatever the tolerances. *)
Theorem C68_special : forall e m a b, length (bmin a) = length (bmin b) -> length (bmax a) = length (bmax b) -> bounds_relative_eq e m a b = true ->
  Forall2 (fun x y => is_nan x = false /\ is_nan y = false /\ (is_finite x = false \/ is_finite y = false -> x = y)) (bmin a ++ bmax a) (bmin b ++ bmax b).
Proof. exact bounds_relative_special. Qed.
Print Assumptions C68_special.

Example C68_special_example : bounds_relative_eq feps feps (mkBounds [fninf; f0] [f1; finf]) (mkBounds [fninf; f0] [fadd f1 feps; finf]) = true /\
  bounds_relative_eq feps f1 (mkBounds [fninf; f0] [f1; finf]) (mkBounds [fninf; f0] [f1; f1]) = false.
Proof. exact infinite_example. Qed.
Example C68_example : Forall finite (bmin box_a ++ bmax box_a) /\ Forall finite (bmin box_a' ++ bmax box_a') /\
  bounds_eqb box_a box_a' = false /\ bounds_relative_eq feps feps box_a box_a' = true /\ fle f0 feps.
Proof. exact approx_example. Qed.
Example C68_exact_example : Forall finite (bmin box_b ++ bmax box_b) /\ Forall finite (bmin box_b' ++ bmax box_b') /\
  Forall2 (fun x y => (1 <= Rmax (Rabs (real x)) (Rabs (real y)))%R) (bmin box_b ++ bmax box_b) (bmin box_b' ++ bmax box_b') /\
  bounds_relative_eq feps feps box_b box_b' = true /\ bounds_eqb box_b box_b' = false.
Proof. exact exact_example. Qed.
