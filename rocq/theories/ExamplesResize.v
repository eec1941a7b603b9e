(** Concrete cases for resized_ndarray. *)
From Coq Require Import ZArith List Bool Reals Lra Lia Psatz.
From Flocq Require Import Core BinarySingleNaN.
From Verif Require Import Base F32 FloatFacts RoundError Arith Geom NdArray GridMap Resize Spec SpecMap ConverterProofs BoundsProofs NdProofs GridProofs ExpandProofs MapProofs ResizeProofs Examples ExamplesMap.
Open Scope Z_scope.

Definition panics {X} (o : outcome X) : bool := match o with Panic => true | _ => false end.
Lemma panics_true : forall {X} (o : outcome X), panics o = true -> o = Panic.
Proof. intros X o H. destruct o; try discriminate. reflexivity. Qed.
Definition nd_eqb (a b : ndarray Z) : bool := cell_eqb (nd_shape a) (nd_shape b) && cell_eqb (nd_data a) (nd_data b).
Lemma nd_eqb_true : forall a b, nd_eqb a b = true -> a = b.
Proof.
  intros [s x] [s' y] H. unfold nd_eqb in H. cbn [nd_shape nd_data] in H. apply andb_true_iff in H. destruct H as [H1 H2].
  apply cell_eqb_true in H1, H2. now subst.
Qed.
Definition yields (o : outcome (ndarray Z)) (a : ndarray Z) : bool := match o with Ret x => nd_eqb x a | _ => false end.
Lemma yields_true : forall o a, yields o a = true -> o = Ret a.
Proof. intros o a H. destruct o; try discriminate. cbn in H. apply nd_eqb_true in H. now subst. Qed.

(** ** Within the range *)
Definition rs_from : cell_bounds := mkCB [-1; 0] [2; 2].
Definition rs_to : cell_bounds := mkCB [0; -1] [4; 2].
Definition rs_data : ndarray Z := mkNd [3; 2] [1; 2; 3; 4; 5; 6].
Lemma rs_data_ok : storage_ok rs_data.
Proof. split; [repeat constructor; vm_compute; discriminate|reflexivity]. Qed.
Lemma tenth_large : (bpow radix2 (-21) <= real tenth)%R.
Proof. unfold real, tenth. closed_float (f32_lit 1 10). rewrite V. change (bpow radix2 (-21)) with (/ 2097152)%R. lra. Qed.
Lemma rs_ordered : cb_ordered 2 rs_from /\ cb_ordered 2 rs_to.
Proof. split; (split; [reflexivity|split; [reflexivity|]]); cbn; repeat constructor; lia. Qed.
Lemma rs_near : cb_near (2 ^ 19) rs_from /\ cb_near (2 ^ 19) rs_to.
Proof. split; split; cbn; repeat constructor; lia. Qed.
Lemma rs_result : resized_ndarray rs_data (bounds_from_cell_bounds rs_from tenth) (bounds_from_cell_bounds rs_to tenth) tenth 9 =
  Ret (mkNd [4; 3] [9; 3; 4; 9; 5; 6; 9; 9; 9; 9; 9; 9]).
Proof. apply yields_true. vm_compute. reflexivity. Qed.

(** ** Five million cells away the two slices differ in size *)
Definition far_from : cell_bounds := mkCB [5475719; 0] [5475722; 2].
Definition far_to : cell_bounds := mkCB [5475717; 0] [5475728; 2].
Lemma far_ordered : cb_ordered 2 far_from /\ cb_ordered 2 far_to.
Proof. split; (split; [reflexivity|split; [reflexivity|]]); cbn; repeat constructor; lia. Qed.
Lemma far_arrays : yields (ndarray_with_bounds tenth (bounds_from_cell_bounds far_from tenth) 7) (mkNd [3; 2] (repeat 7 6)) = true /\
  yields (ndarray_with_bounds tenth (bounds_from_cell_bounds far_to tenth) 7) (mkNd [11; 2] (repeat 7 22)) = true.
Proof. split; vm_compute; reflexivity. Qed.
Lemma far_panic : panics (resized_ndarray (mkNd [3; 2] (repeat 7 6)) (bounds_from_cell_bounds far_from tenth)
   (bounds_from_cell_bounds far_to tenth) tenth 9) = true.
Proof. vm_compute. reflexivity. Qed.
Lemma resize_panics : exists r from to (data : ndarray Z) v fresh, res_ok r /\ (bpow radix2 (-21) <= real r)%R /\
  cb_ordered 2 from /\ cb_ordered 2 to /\ cb_near (2 ^ 23) from /\ cb_near (2 ^ 23) to /\
  ndarray_with_bounds r (bounds_from_cell_bounds from r) v = Ret data /\ nd_shape data = map2 Z.sub (cmax from) (cmin from) /\
  ndarray_with_bounds r (bounds_from_cell_bounds to r) v = Ret fresh /\ nd_shape fresh = map2 Z.sub (cmax to) (cmin to) /\
  resized_ndarray data (bounds_from_cell_bounds from r) (bounds_from_cell_bounds to r) r v = Panic /\
  resized_ndarray fresh (bounds_from_cell_bounds to r) (bounds_from_cell_bounds from r) r v = Panic.
Proof.
  exists tenth, far_from, far_to, (mkNd [3; 2] (repeat 7 6)), 7, (mkNd [11; 2] (repeat 7 22)).
  split; [exact res_tenth|]. split; [exact tenth_large|]. split; [exact (proj1 far_ordered)|]. split; [exact (proj2 far_ordered)|].
  split; [split; cbn; repeat constructor; lia|]. split; [split; cbn; repeat constructor; lia|].
  split; [apply yields_true; exact (proj1 far_arrays)|]. split; [reflexivity|].
  split; [apply yields_true; exact (proj2 far_arrays)|]. split; [reflexivity|].
  split; apply panics_true; vm_compute; reflexivity.
Qed.

(** ** Boxes off the grid: one value is copied into two cells *)
Definition off_from : bounds := mkBounds [f0; f0] [f32_of_Z 2; f1].
Definition off_to : bounds := mkBounds [f32_lit 1 2; f0] [f32_lit 7 2; f1].
Definition off_cut : bounds := mkBounds [f32_lit (-1) 4; f0] [f32_lit 7 16; f1].
Lemma resize_smears : exists r from to to' (data a : ndarray Z) v, res_ok r /\ ordered 2 from /\ ordered 2 to /\ ordered 2 to' /\
  ndarray_with_bounds r from v = Ret (mkNd (nd_shape data) (repeat v (length (nd_data data)))) /\
  resized_ndarray data from to r v = Ret a /\ nd_shape data = [2; 1] /\ nd_get data [0; 0] = Ret 4 /\ nd_get data [1; 0] = Ret 5 /\ nd_get a [0; 0] = Ret 5 /\ nd_get a [1; 0] = Ret 5 /\
  resized_ndarray data from to' r v = Panic.
Proof.
  exists f1, off_from, off_to, off_cut, (mkNd [2; 1] [4; 5]), (mkNd [3; 1] [5; 5; 9]), 9.
  split; [exact res_one|]. split; [repeat split; try reflexivity; repeat constructor; vm_compute; reflexivity|].
  split; [repeat split; try reflexivity; repeat constructor; vm_compute; reflexivity|].
  split; [repeat split; try reflexivity; repeat constructor; vm_compute; reflexivity|].
  split; [apply yields_true; vm_compute; reflexivity|]. split; [apply yields_true; vm_compute; reflexivity|].
  split; [reflexivity|]. split; [reflexivity|]. split; [reflexivity|]. split; [reflexivity|]. split; [reflexivity|].
  apply panics_true. vm_compute. reflexivity.
Qed.

(** ** With cells smaller than the comparison's tolerance everything is lost *)
Definition tiny : f32 := f32_lit 1 100000000.
Lemma res_tiny : res_ok tiny.
Proof.
  split; [reflexivity|]. unfold real, tiny. closed_float (f32_lit 1 100000000). rewrite V.
  pose proof (bpow_le radix2 0 100 ltac:(lia)) as B. pose proof (bpow_le radix2 (-100) (-30) ltac:(lia)) as B'.
  change (bpow radix2 0) with 1%R in B. change (bpow radix2 (-30)) with (/ 1073741824)%R in B'. lra.
Qed.
Lemma resize_loses : exists r cb (data a : ndarray Z) v w, res_ok r /\ cb_ordered 2 cb /\ cb_near (2 ^ 18) cb /\ storage_ok data /\
  nd_shape data = map2 Z.sub (cmax cb) (cmin cb) /\ in_box cb w /\
  resized_ndarray data (bounds_from_cell_bounds cb r) (bounds_from_cell_bounds cb r) r v = Ret a /\
  nd_get data (map2 Z.sub w (cmin cb)) = Ret 5 /\ nd_get a (map2 Z.sub w (cmin cb)) = Ret v /\ v <> 5.
Proof.
  exists tiny, (mkCB [0; 0] [2; 1]), (mkNd [2; 1] [4; 5]), (mkNd [2; 1] [9; 9]), 9, [1; 0].
  split; [exact res_tiny|].
  split; [split; [reflexivity|split; [reflexivity|]]; cbn; repeat constructor; lia|].
  split; [split; cbn; repeat constructor; lia|].
  split; [split; [repeat constructor; vm_compute; discriminate|reflexivity]|]. split; [reflexivity|].
  split; [split; cbn; repeat constructor; lia|]. split; [apply yields_true; vm_compute; reflexivity|].
  split; [reflexivity|]. split; [reflexivity|discriminate].
Qed.
