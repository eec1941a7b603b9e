(** C80, C81: exactly when rays return and scans are taken in, and what scans then do. *)
From Coq Require Import ZArith List Bool Reals.
From Flocq Require Import Core BinarySingleNaN.
From Verif Require Import Base F32 Arith Geom NdArray GridMap RayCaster NoiseModel Spec SpecMap SpecNoise SpecRay ReturnProofs Examples ExamplesMap ExamplesRay ExamplesNoise ExamplesReturn.
Open Scope Z_scope.

(** A ray returns exactly if on its way lies its end cell or another cell that is too far. *)
Theorem C80_ray : forall d (o e b : point) r m, (d = 2 \/ d = 3)%nat -> length o = d -> length e = d -> length b = d ->
  let oc := cell_from_point F32A o b r in let ec := cell_from_point F32A e b r in timely o e b r oc ec ->
  ((exists fuel res, cast_ray F32A fuel o e b r m = Ret res) <->
   exists z, passes d o e b r oc z /\ cells_in_isize z /\ ends_ray o b r m oc ec z).
Proof. exact ray_returns_iff. Qed.
Print Assumptions C80_ray.

(** What it then returns: the cells on its way before the first one that ends it. *)
Theorem C80_result : forall fuel d (o e b : point) r m rc oe, (d = 2 \/ d = 3)%nat -> length o = d -> length e = d -> length b = d ->
  let oc := cell_from_point F32A o b r in let ec := cell_from_point F32A e b r in timely o e b r oc ec ->
  cast_ray F32A fuel o e b r m = Ret (rc, oe) ->
  exists z, passes d o e b r oc z /\ cells_in_isize z /\ ends_ray o b r m oc ec z /\ (z = ec -> oe = Some ec) /\ (z <> ec -> oe = None) /\
    (forall x, In x rc <-> passes d o e b r oc x /\ manhattan oc x < manhattan oc z) /\
    (forall x, In x rc -> ~ ends_ray o b r m oc ec x).
Proof. exact ray_result. Qed.
Print Assumptions C80_result.

(** A scan is taken in exactly if all its rays return and stay in the grown map; if all return and
    one does not stay in the map, the program panics. *)
Theorem C80_rays : forall fuel of oo m g g1 o cloud, is_order of -> is_order oo -> storage_ok (gm_data g1) ->
  gm_expand_bounds g (pc_bounds cloud) f0 = Ret g1 ->
  let cast p := cast_ray F32A fuel o p (bmin (gm_bounds g1)) (gm_resolution g1) (max_range m) in
  let in_map := in_range (nd_shape (gm_data g1)) in
  ((exists g', integrate_point_cloud fuel of oo m g o cloud = Ret g') <->
   forall p, In p (pc_points cloud) -> exists rc oe, cast p = Ret (rc, oe) /\ Forall in_map rc /\ (forall c, oe = Some c -> in_map c)) /\
  ((forall p, In p (pc_points cloud) -> exists res, cast p = Ret res) ->
   ~ (forall p, In p (pc_points cloud) -> exists rc oe, cast p = Ret (rc, oe) /\ Forall in_map rc /\ (forall c, oe = Some c -> in_map c)) ->
   integrate_point_cloud fuel of oo m g o cloud = Panic).
Proof. exact integrate_iff. Qed.
Print Assumptions C80_rays.

(** The same without the program's rays: on the way to every point there is a cell that ends the ray
    such that all cells on the way before it, and the end cell if it is that one, are in the map. *)
Theorem C80_scan : forall d r t of oo m g g1 o cloud, map_range d r t -> reachable d r t g ->
  is_order of -> is_order oo -> matrix_ok cloud -> nrows cloud = d -> length o = d -> request_ok d r (pc_bounds cloud) ->
  gm_expand_bounds g (pc_bounds cloud) f0 = Ret g1 ->
  let b := bmin (gm_bounds g1) in let oc := cell_from_point F32A o b r in let in_map := in_range (nd_shape (gm_data g1)) in
  (forall p, In p (pc_points cloud) -> timely o p b r oc (cell_from_point F32A p b r)) ->
  ((exists fuel g', integrate_point_cloud fuel of oo m g o cloud = Ret g') <->
   forall p, In p (pc_points cloud) -> let ec := cell_from_point F32A p b r in
     exists z, passes d o p b r oc z /\ cells_in_isize z /\ ends_ray o b r (max_range m) oc ec z /\ (z = ec -> in_map ec) /\
       forall x, passes d o p b r oc x -> manhattan oc x < manhattan oc z -> in_map x).
Proof. exact scan_taken. Qed.
Print Assumptions C80_scan.

Theorem C80_in_range : forall d (o e b : point) r, (d = 2 \/ d = 3)%nat -> length o = d -> length e = d -> length b = d -> ray_range r o e b ->
  timely o e b r (cell_from_point F32A o b r) (cell_from_point F32A e b r).
Proof. exact range_timely. Qed.
Print Assumptions C80_in_range.

Example C80_example : exists g g1 : grid_map f32, map_range 2 tenth 4 /\ reachable 2 tenth 4 g /\ request_ok 2 tenth (pc_bounds ex_scan1) /\
  gm_expand_bounds g (pc_bounds ex_scan1) f0 = Ret g1 /\
  (forall p, In p (pc_points ex_scan1) -> timely ex_zero p (bmin (gm_bounds g1)) tenth (cell_from_point F32A ex_zero (bmin (gm_bounds g1)) tenth) (cell_from_point F32A p (bmin (gm_bounds g1)) tenth)) /\
  exists fuel g', integrate_point_cloud fuel (fun s => s) (fun s => s) ex_lidar g ex_zero ex_scan1 = Ret g'.
Proof. exact scan1_timely. Qed.
Example C80_ray_example : timely ex_o sl_e ex_b f1 (cell_from_point F32A ex_o ex_b f1) (cell_from_point F32A sl_e ex_b f1) /\
  ends_ray ex_o ex_b f1 f1 (cell_from_point F32A ex_o ex_b f1) (cell_from_point F32A sl_e ex_b f1) [2; 1; 0].
Proof. exact sloped_ends. Qed.

(** The cells and the end a ray returns. *)
Theorem C81_ray : forall fuel d (o e b : point) r m rc oe, (d = 2 \/ d = 3)%nat -> length o = d -> length e = d -> length b = d ->
  let oc := cell_from_point F32A o b r in let ec := cell_from_point F32A e b r in timely o e b r oc ec ->
  cast_ray F32A fuel o e b r m = Ret (rc, oe) ->
  (forall c, oe = Some c <-> c = ec /\ stops_at d o e b r m oc ec c) /\ (forall x, In x rc <-> crosses d o e b r m oc ec x).
Proof. exact ray_stops. Qed.
Print Assumptions C81_ray.

(** Where a ray stops is determined. *)
Theorem C81_one_stop : forall d (o e b : point) r m y z, (d = 2 \/ d = 3)%nat -> length o = d -> length e = d -> length b = d ->
  let oc := cell_from_point F32A o b r in let ec := cell_from_point F32A e b r in timely o e b r oc ec ->
  stops_at d o e b r m oc ec y -> stops_at d o e b r m oc ec z -> y = z.
Proof. exact stop_unique. Qed.
Print Assumptions C81_one_stop.

(** All a scan does to a map, place by place, and what it reports; [cb] are the world cells covered
    before, [cb'] those covered afterwards. *)
Theorem C81_scan : forall d r t fuel of oo m g o cloud g', map_range d r t -> reachable d r t g -> matrix_ok cloud -> nrows cloud = d -> length o = d ->
  request_ok d r (pc_bounds cloud) -> is_order of -> is_order oo ->
  integrate_point_cloud fuel of oo m g o cloud = Ret g' ->
  let b := bmin (gm_bounds g') in let oc := cell_from_point F32A o b r in let ec p := cell_from_point F32A p b r in
  (forall p, In p (pc_points cloud) -> timely o p b r oc (ec p)) ->
  let hit c := exists p, In p (pc_points cloud) /\ c = ec p /\ stops_at d o p b r (max_range m) oc (ec p) c in
  let crossed c := exists p, In p (pc_points cloud) /\ crosses d o p b r (max_range m) oc (ec p) c in
  exists cb cb' reported, covers_cells d r t g cb /\ covers_cells d r t g' cb' /\
    (forall w, in_box cb w -> in_box cb' w) /\
    (forall c, hit c \/ crossed c -> in_range (nd_shape (gm_data g')) c) /\
    (forall w, in_box cb' w -> let c := map2 Z.sub w (cmin cb') in
      exists old, ((in_box cb w -> gm_get g (map2 Z.sub w (cmin cb)) = Ret old) /\ (~ in_box cb w -> old = f0)) /\
        (hit c -> gm_get g' c = Ret (fmin (fadd old (hit_logodds m)) (max_logodds m))) /\
        (~ hit c -> crossed c -> gm_get g' c = Ret (fmax (fadd old (miss_logodds m)) (min_logodds m))) /\
        (~ hit c -> ~ crossed c -> gm_get g' c = Ret old)) /\
    gm_changed_cells g' = gm_changed_cells g ++ reported /\ NoDup reported /\
    (gm_track_changes g = true -> forall c, In c reported <-> hit c \/ crossed c) /\ (gm_track_changes g = false -> reported = []).
Proof. exact scan_writes. Qed.
Print Assumptions C81_scan.

Example C81_example : exists g g' : grid_map f32, exists fuel, map_range 2 tenth 4 /\ reachable 2 tenth 4 g /\ request_ok 2 tenth (pc_bounds ex_scan1) /\
  integrate_point_cloud fuel (fun s => s) (fun s => s) ex_lidar g ex_zero ex_scan1 = Ret g' /\
  let b := bmin (gm_bounds g') in let oc := cell_from_point F32A ex_zero b tenth in
  (forall p, In p (pc_points ex_scan1) -> timely ex_zero p b tenth oc (cell_from_point F32A p b tenth)) /\
  exists p c, In p (pc_points ex_scan1) /\ stops_at 2 ex_zero p b tenth (max_range ex_lidar) oc (cell_from_point F32A p b tenth) c.
Proof. exact scan1_writes. Qed.
