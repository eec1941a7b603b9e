(** Exchanging the first two axes. *)
From Coq Require Import ZArith List Bool Permutation.
From Flocq Require Import Core BinarySingleNaN.
From Verif Require Import Base F32 Arith Geom NdArray GridMap Spec SpecRay.
Open Scope Z_scope.

Definition swapped {A} (l : list A) : list A := match l with x :: y :: rest => y :: x :: rest | _ => l end.
Definition swapped_box (b : bounds) : bounds := mkBounds (swapped (bmin b)) (swapped (bmax b)).
(** What casting a ray gives, with the axes exchanged. *)
Definition swapped_ray (r : list cell * option cell) : list cell * option cell := (map swapped (fst r), option_map swapped (snd r)).
Definition swapped_cloud (c c' : matrix) : Prop := nrows c' = nrows c /\ pc_points c' = map swapped (pc_points c).
Definition swapped_scan (s s' : point * matrix) : Prop := fst s' = swapped (fst s) /\ swapped_cloud (snd s) (snd s').
(** The same map with the axes exchanged; the reported cells may be in another order. *)
Definition swapped_map {A} (g g' : grid_map A) : Prop :=
  gm_bounds g' = swapped_box (gm_bounds g) /\ gm_resolution g' = gm_resolution g /\ gm_tile_size g' = gm_tile_size g /\
  gm_track_changes g' = gm_track_changes g /\ nd_shape (gm_data g') = swapped (nd_shape (gm_data g)) /\
  (forall c, cells_in_isize c -> gm_get g' (swapped c) = gm_get g c) /\
  Permutation (gm_changed_cells g') (map swapped (gm_changed_cells g)).

(** Within [n] steps the ray crosses no two borders of the first two axes at the same place, unless, in
    three dimensions, it never crosses any. *)
Definition untied (n : nat) (o e b : point) (r : f32) : Prop :=
  let t := first_crossings o e b r (cell_from_point F32A o b r) in let s := spacings o e r in
  forall i j, (i + j < n)%nat ->
    let x := crossing (nth 0 t finf) (nth 0 s finf) i in let y := crossing (nth 1 t finf) (nth 1 s finf) j in
    fltb x y = true \/ fltb y x = true \/ (length o = 3%nat /\ x = finf /\ y = finf).
