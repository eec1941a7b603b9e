(** C86: exchanging the first two axes. *)
From Coq Require Import ZArith List Bool Permutation.
From Flocq Require Import Core BinarySingleNaN.
From Verif Require Import Base F32 Arith Geom NdArray GridMap RayCaster NoiseModel Spec SpecMap SpecNoise SpecRay SpecScale SpecSwap SwapProofs SwapMapProofs ExamplesMap ExamplesNoise ExamplesScale ExamplesSwap.
Open Scope Z_scope.

(** A ray with its first two coordinates exchanged gives the exchanged cells in the same order, and returns,
    panics or goes on alike, if no two borders of these axes are crossed at the same place. *)
Theorem C86_ray : forall fuel d (o e b : point) r m, (d = 2 \/ d = 3)%nat -> length o = d -> length e = d -> length b = d ->
  (cell_from_point F32A o b r <> cell_from_point F32A e b r -> untied fuel o e b r) ->
  cast_ray F32A fuel (swapped o) (swapped e) (swapped b) r m = obind (cast_ray F32A fuel o e b r m) (fun x => Ret (swapped_ray x)).
Proof. exact ray_swapped. Qed.
Print Assumptions C86_ray.

(** So does a scan. *)
Theorem C86_scan : forall fuel d (o : point) cloud cloud' bs bs' r m, (d = 2 \/ d = 3)%nat -> length o = d -> length (bmin bs) = d ->
  (forall p, In p (pc_points cloud) -> length p = d /\ (cell_from_point F32A o (bmin bs) r <> cell_from_point F32A p (bmin bs) r -> untied fuel o p (bmin bs) r)) ->
  pc_points cloud' = map swapped (pc_points cloud) -> bmin bs' = swapped (bmin bs) ->
  cast_rays fuel (swapped o) cloud' bs' r m =
  obind (cast_rays fuel o cloud bs r m) (fun fo => Ret (map swapped (fst fo), map swapped (snd fo))).
Proof. exact scan_swapped. Qed.
Print Assumptions C86_scan.

(** A new map is its own exchange. *)
Theorem C86_new : forall A d r t (v : A) g, map_range d r t -> gm_new r (bounds_empty d) t v = Ret g -> swapped_map g g /\ storage_ok (gm_data g).
Proof. exact (@new_swapped). Qed.
Print Assumptions C86_new.

(** Growing exchanged maps to exchanged boxes gives exchanged maps. *)
Theorem C86_expand : forall A d r t (g g' : grid_map A) b v, map_range d r t -> reachable d r t g -> swapped_map g g' -> storage_ok (gm_data g') -> request_ok d r b ->
  exists g1 g1', gm_expand_bounds g b v = Ret g1 /\ gm_expand_bounds g' (swapped_box b) v = Ret g1' /\ swapped_map g1 g1' /\ storage_ok (gm_data g1').
Proof. exact (@expand_reachable_swapped). Qed.
Print Assumptions C86_expand.

(** Exchanged scans integrated one after the other give the exchanged map, whatever the orders in which the cells are gone through. *)
Theorem C86_map : forall d r t fuel of oo of' oo' m, map_range d r t -> is_order of -> is_order oo -> is_order of' -> is_order oo' ->
  forall scans scans' g g', reachable d r t g -> swapped_map g g' -> storage_ok (gm_data g') -> Forall (fun s => scan_in d s /\ request_ok d r (pc_bounds (snd s))) scans -> Forall2 swapped_scan scans scans' ->
  (forall before o c after g0 g1 p, scans = before ++ (o, c) :: after -> built fuel of oo m g before = Ret g0 -> gm_expand_bounds g0 (pc_bounds c) f0 = Ret g1 -> In p (pc_points c) ->
    cell_from_point F32A o (bmin (gm_bounds g1)) r <> cell_from_point F32A p (bmin (gm_bounds g1)) r -> untied fuel o p (bmin (gm_bounds g1)) r) ->
  alike swapped_map (built fuel of oo m g scans) (built fuel of' oo' m g' scans').
Proof. exact history_swapped. Qed.
Print Assumptions C86_map.

(** In such maps the exchanged cells are occupied. *)
Theorem C86_occupied : forall m g g' c, swapped_map g g' -> cells_in_isize c -> occupied m g' (swapped c) = occupied m g c.
Proof. exact occupied_swapped. Qed.
Print Assumptions C86_occupied.

Example C86_example : untied 40 su_o [f32_lit 7 10; f32_lit 2 10] [f0; f0] tenth /\ untied 40 sx_o sx_e sx_b tenth /\
  cast_ray F32A 40 su_o [f32_lit 7 10; f32_lit 2 10] [f0; f0] tenth f0 = Ret ([[1; 1]; [2; 1]; [3; 1]; [4; 1]; [4; 2]; [5; 2]; [6; 2]], Some [7; 2]) /\
  cast_ray F32A 40 sx_o sx_e sx_b tenth f0 = Ret ([[5; 4; 2]; [6; 4; 2]; [6; 4; 3]; [7; 4; 3]; [7; 4; 4]; [7; 3; 4]; [8; 3; 4]; [8; 3; 5]], Some [9; 3; 5]) /\
  cast_ray F32A 40 (swapped sx_o) (swapped sx_e) (swapped sx_b) tenth f0 = Ret ([[4; 5; 2]; [4; 6; 2]; [4; 6; 3]; [4; 7; 3]; [4; 7; 4]; [3; 7; 4]; [3; 8; 4]; [3; 8; 5]], Some [3; 9; 5]).
Proof. exact sx_rays. Qed.
Example C86_map_example : map_range 2 tenth 4 /\ Forall (fun s => scan_in 2 s /\ request_ok 2 tenth (pc_bounds (snd s))) sx_scans /\ Forall2 swapped_scan sx_scans sx_scans' /\
  (forall g, gm_new tenth (bounds_empty 2) 4 f0 = Ret g ->
    forall before o c after g0 g1 p, sx_scans = before ++ (o, c) :: after -> built 40 same_order same_order ex_lidar g before = Ret g0 -> gm_expand_bounds g0 (pc_bounds c) f0 = Ret g1 -> In p (pc_points c) ->
      cell_from_point F32A o (bmin (gm_bounds g1)) tenth <> cell_from_point F32A p (bmin (gm_bounds g1)) tenth -> untied 40 o p (bmin (gm_bounds g1)) tenth) /\
  exists g g2 g2', gm_new tenth (bounds_empty 2) 4 f0 = Ret g /\
    built 40 same_order same_order ex_lidar g sx_scans = Ret g2 /\ built 40 same_order same_order ex_lidar g sx_scans' = Ret g2' /\
    occupied ex_lidar g2 [11; 10] = Ret true /\ occupied ex_lidar g2' [10; 11] = Ret true /\ occupied ex_lidar g2' [9; 5] = Ret false /\ nd_shape (gm_data g2') = [12; 16].
Proof. exact (conj ex_map_range (conj sx_in (conj sx_swapped (conj sx_untied sx_result)))). Qed.

(** Ties matter: of two borders at the same place that of the second axis is crossed first, exchanged or not. *)
Theorem C86_ties_refuted : exists fuel (o e b : point) r m rc oe rc' oe' c, length o = 2%nat /\ length e = 2%nat /\ length b = 2%nat /\ Forall finite (o ++ e ++ b ++ [m]) /\ res_ok r /\
  cast_ray F32A fuel o e b r m = Ret (rc, oe) /\ cast_ray F32A fuel (swapped o) (swapped e) (swapped b) r m = Ret (rc', oe') /\ In c rc /\ ~ In (swapped c) rc'.
Proof. exact sx_ties. Qed.
Print Assumptions C86_ties_refuted.

(** The first and the third axis cannot be exchanged: a ray from the origin that crosses no two borders at the
    same place, exchanged or not, passes through a cell whose exchange it then misses. *)
Theorem C86_third_axis_refuted : exists fuel (x y z : f32) (b : point) r m rc oe rc' oe' c, let e := [x; y; z] in let e' := [z; y; x] in Forall finite ([x; y; z; m] ++ b) /\ b = [f0; f0; f0] /\ res_ok r /\
  (forall q k l i j, q = e \/ q = e' -> (k < l < 3)%nat -> (i + j < fuel)%nat ->
    let t := first_crossings b q b r (cell_from_point F32A b b r) in let s := spacings b q r in
    let u := crossing (nth k t finf) (nth k s finf) i in let v := crossing (nth l t finf) (nth l s finf) j in fltb u v = true \/ fltb v u = true) /\
  cast_ray F32A fuel b e b r m = Ret (rc, oe) /\ cast_ray F32A fuel b e' b r m = Ret (rc', oe') /\ In c rc /\ ~ In [nth 2 c 0; nth 1 c 0; nth 0 c 0] rc'.
Proof. exact sx_third. Qed.
Print Assumptions C86_third_axis_refuted.
