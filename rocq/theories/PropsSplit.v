(** C93: a scan in two parts. *)
From Coq Require Import ZArith List Bool Reals.
From Flocq Require Import Core BinarySingleNaN.
From Verif Require Import Base F32 Arith Geom NdArray GridMap RayCaster NoiseModel Spec SpecMap SpecNoise SplitProofs ExamplesMap ExamplesRay ExamplesNoise ExamplesSplit.
Open Scope Z_scope.

(** The cells of all rays are those of the rays of the parts, where occupied wins over free. *)
Theorem C93_rays : forall fuel o A B AB b r m f oc fA oA fB oB, (forall p, In p (pc_points AB) <-> In p (pc_points A) \/ In p (pc_points B)) ->
  cast_rays fuel o AB b r m = Ret (f, oc) -> cast_rays fuel o A b r m = Ret (fA, oA) -> cast_rays fuel o B b r m = Ret (fB, oB) ->
  (forall c, In c oc <-> In c oA \/ In c oB) /\ (forall c, In c f <-> (In c fA \/ In c fB) /\ ~ In c oA /\ ~ In c oB).
Proof. exact rays_union. Qed.
Print Assumptions C93_rays.

(** If the map is large enough for all points, the scan is taken in exactly if the parts are, one after the other. *)
Theorem C93_taken : forall d r t m (g : grid_map f32) o A B AB fuel, map_range d r t -> reachable d r t g ->
  matrix_ok A -> matrix_ok B -> matrix_ok AB -> nrows A = d -> nrows B = d -> nrows AB = d ->
  request_ok d r (pc_bounds AB) -> gm_expand_bounds g (pc_bounds AB) f0 = Ret g ->
  (forall p, In p (pc_points AB) <-> In p (pc_points A) \/ In p (pc_points B)) ->
  forall of1 oo1 of2 oo2 of3 oo3, is_order of1 -> is_order oo1 -> is_order of2 -> is_order oo2 -> is_order of3 -> is_order oo3 ->
  ((exists g', integrate_point_cloud fuel of1 oo1 m g o AB = Ret g') <->
   exists gA g', integrate_point_cloud fuel of2 oo2 m g o A = Ret gA /\ integrate_point_cloud fuel of3 oo3 m gA o B = Ret g').
Proof. exact split_taken. Qed.
Print Assumptions C93_taken.

(** The values then differ only in cells that both parts observe: such a cell gets one observation
    from the scan, a hit if either part has one, and two from the parts. *)
Theorem C93_values : forall d r t m (g : grid_map f32) o A B AB fuel, map_range d r t -> reachable d r t g ->
  matrix_ok A -> matrix_ok B -> matrix_ok AB -> nrows A = d -> nrows B = d -> nrows AB = d ->
  request_ok d r (pc_bounds AB) -> gm_expand_bounds g (pc_bounds AB) f0 = Ret g ->
  (forall p, In p (pc_points AB) <-> In p (pc_points A) \/ In p (pc_points B)) ->
  forall of1 oo1 of2 oo2 of3 oo3 gAB gA gB, is_order of1 -> is_order oo1 -> is_order of2 -> is_order oo2 -> is_order of3 -> is_order oo3 ->
  integrate_point_cloud fuel of1 oo1 m g o AB = Ret gAB -> integrate_point_cloud fuel of2 oo2 m g o A = Ret gA -> integrate_point_cloud fuel of3 oo3 m gA o B = Ret gB ->
  let hit v := fmin (fadd v (hit_logodds m)) (max_logodds m) in let miss v := fmax (fadd v (miss_logodds m)) (min_logodds m) in
  gm_bounds gAB = gm_bounds gB /\ nd_shape (gm_data gAB) = nd_shape (gm_data gB) /\
  exists fA oA fB oB, cast_rays fuel o A (gm_bounds g) (gm_resolution g) (max_range m) = Ret (fA, oA) /\ cast_rays fuel o B (gm_bounds g) (gm_resolution g) (max_range m) = Ret (fB, oB) /\
  (forall c, cells_in_isize c -> ~ ((In c fA \/ In c oA) /\ (In c fB \/ In c oB)) -> gm_get gAB c = gm_get gB c) /\
  (forall c, In c fA \/ In c oA -> In c fB \/ In c oB -> exists v, gm_get g c = Ret v /\
     (In c oA -> In c oB -> gm_get gAB c = Ret (hit v) /\ gm_get gB c = Ret (hit (hit v))) /\
     (In c oA -> In c fB -> gm_get gAB c = Ret (hit v) /\ gm_get gB c = Ret (miss (hit v))) /\
     (In c fA -> In c oB -> gm_get gAB c = Ret (hit v) /\ gm_get gB c = Ret (hit (miss v))) /\
     (In c fA -> In c fB -> gm_get gAB c = Ret (miss v) /\ gm_get gB c = Ret (miss (miss v)))) /\
  (gm_track_changes g = true -> forall c, In c (gm_changed_cells gAB) <-> In c (gm_changed_cells gB)).
Proof. exact split_values. Qed.
Print Assumptions C93_values.

(** How often the points of a scan are given, and in which order, does not matter. *)
Theorem C93_copies : forall d r t m g o A B fuel of1 oo1 of2 oo2, map_range d r t -> reachable d r t g ->
  matrix_ok A -> matrix_ok B -> nrows A = d -> nrows B = d -> request_ok d r (pc_bounds A) -> gm_expand_bounds g (pc_bounds A) f0 = Ret g ->
  (forall p, In p (pc_points A) <-> In p (pc_points B)) -> is_order of1 -> is_order oo1 -> is_order of2 -> is_order oo2 ->
  ((exists gA, integrate_point_cloud fuel of1 oo1 m g o A = Ret gA) <-> exists gB, integrate_point_cloud fuel of2 oo2 m g o B = Ret gB) /\
  forall gA gB, integrate_point_cloud fuel of1 oo1 m g o A = Ret gA -> integrate_point_cloud fuel of2 oo2 m g o B = Ret gB ->
  gm_bounds gA = gm_bounds gB /\ nd_shape (gm_data gA) = nd_shape (gm_data gB) /\ (forall c, cells_in_isize c -> gm_get gA c = gm_get gB c) /\
  (gm_track_changes g = true -> forall c, In c (gm_changed_cells gA) <-> In c (gm_changed_cells gB)).
Proof. exact same_points. Qed.
Print Assumptions C93_copies.

Example C93_example : map_range 2 tenth 4 /\ matrix_ok part1 /\ matrix_ok part2 /\ matrix_ok ex_scan1 /\ matrix_ok ex_repeated /\ nrows ex_repeated = 2%nat /\
  nrows part1 = 2%nat /\ nrows part2 = 2%nat /\ nrows ex_scan1 = 2%nat /\ request_ok 2 tenth (pc_bounds ex_scan1) /\
  (forall p, In p (pc_points ex_scan1) <-> In p (pc_points part1) \/ In p (pc_points part2)) /\
  (forall p, In p (pc_points ex_scan1) <-> In p (pc_points ex_repeated)).
Proof. exact parts_ok. Qed.
Example C93_values_example : exists g g1 gA gB : grid_map f32, reachable 2 tenth 4 g /\ gm_track_changes g = true /\ gm_expand_bounds g (pc_bounds ex_scan1) f0 = Ret g /\
  integrate_point_cloud 50 as_is as_is ex_lidar g ex_zero ex_scan1 = Ret g1 /\
  integrate_point_cloud 50 as_is as_is ex_lidar g ex_zero part1 = Ret gA /\ integrate_point_cloud 50 (@rev cell) as_is ex_lidar gA ex_zero part2 = Ret gB /\
  cast_rays 50 ex_zero part1 (gm_bounds g) tenth (max_range ex_lidar) = Ret ([[0; 0]; [1; 0]], [[2; 0]]) /\
  cast_rays 50 ex_zero part2 (gm_bounds g) tenth (max_range ex_lidar) = Ret ([[0; 0]; [0; 1]; [1; 1]], [[1; 2]]) /\
  gm_get g1 [0; 0] = Ret (f32_lit (-4) 10) /\ gm_get gB [0; 0] = Ret (f32_lit (-8) 10).
Proof. exact parts_taken. Qed.
