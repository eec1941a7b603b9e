(** C84: other units of length. *)
From Coq Require Import ZArith List Bool Reals.
From Flocq Require Import Core BinarySingleNaN.
From Verif Require Import Base F32 Arith Geom NdArray GridMap RayCaster NoiseModel Spec SpecScale ScaleProofs ScaleMapProofs ExamplesMap ExamplesNoise ExamplesScale.
Open Scope Z_scope.

(** With point, offset and resolution in a unit 2^k times smaller, the cell is the same. *)
Theorem C84_cell : forall k (p p' b b' : point) r r', Forall2 (rescaled k) p p' -> Forall2 (rescaled k) b b' -> rescaled_size k r r' ->
  cell_from_point F32A p' b' r' = cell_from_point F32A p b r.
Proof. exact cell_rescaled. Qed.
Print Assumptions C84_cell.

(** So are the cells of a ray, and whether it returns, panics or goes on. *)
Theorem C84_ray : forall k fuel d (o o' e e' b b' : point) r r' m m', (d = 2 \/ d = 3)%nat -> length o = d -> length e = d -> length b = d ->
  Forall2 (rescaled k) o o' -> Forall2 (rescaled k) e e' -> Forall2 (rescaled k) b b' -> rescaled_size k r r' -> rescaled k m m' -> Z.of_nat fuel <= 2 ^ 38 ->
  cast_ray F32A fuel o' e' b' r' m' = cast_ray F32A fuel o e b r m.
Proof. exact ray_rescaled. Qed.
Print Assumptions C84_ray.

(** And the cells of a whole scan, in the same order. *)
Theorem C84_scan : forall k fuel d (o o' : point) cloud cloud' bs bs' r r' m m', (d = 2 \/ d = 3)%nat -> length o = d -> length (bmin bs) = d ->
  (forall p, In p (pc_points cloud) -> length p = d) ->
  Forall2 (rescaled k) o o' -> Forall2 (Forall2 (rescaled k)) (pc_points cloud) (pc_points cloud') -> Forall2 (rescaled k) (bmin bs) (bmin bs') ->
  rescaled_size k r r' -> rescaled k m m' -> Z.of_nat fuel <= 2 ^ 38 ->
  cast_rays fuel o' cloud' bs' r' m' = cast_rays fuel o cloud bs r m.
Proof. exact scan_rescaled. Qed.
Print Assumptions C84_scan.

(** New maps with the cell size in either unit are the same map, or are both refused. *)
Theorem C84_new : forall k d r r' t, rescaled_size k r r' -> alike (rescaled_map k) (gm_new r (bounds_empty d) t f0) (gm_new r' (bounds_empty d) t f0).
Proof. exact new_rescaled. Qed.
Print Assumptions C84_new.

(** Scans integrated one after the other give the same map: the same cells with the same values, and the
    box in the other unit.  The maps made on the way must not reach too far or too close to zero. *)
Theorem C84_map : forall k fuel of oo d m m', (d = 2 \/ d = 3)%nat -> rescaled_lidar k m m' -> Z.of_nat fuel <= 2 ^ 38 -> forall scans scans' g g',
  length (bmin (gm_bounds g)) = d -> length (bmax (gm_bounds g)) = d -> rescaled_map k g g' -> Forall (scan_in d) scans -> Forall2 (rescaled_scan k) scans scans' ->
  (forall before o c after g0 g1, scans = before ++ (o, c) :: after -> built fuel of oo m g before = Ret g0 -> gm_expand_bounds g0 (pc_bounds c) f0 = Ret g1 -> box_usual_in k (gm_bounds g1)) ->
  alike (rescaled_map k) (built fuel of oo m g scans) (built fuel of oo m' g' scans').
Proof. exact history_rescaled. Qed.
Print Assumptions C84_map.

(** The same cells of such maps are occupied. *)
Theorem C84_occupied : forall k m m' g g' c, rescaled_lidar k m m' -> rescaled_map k g g' -> occupied m' g' c = occupied m g c.
Proof. exact occupied_rescaled. Qed.
Print Assumptions C84_occupied.

Example C84_example : Forall2 (rescaled 2) su_o (map quarter su_o) /\ Forall2 (rescaled 2) su_e (map quarter su_e) /\ Forall2 (rescaled 2) su_b (map quarter su_b) /\
  rescaled 2 (max_range ex_lidar) (max_range su_lidar') /\
  cast_ray F32A 99 su_o su_e su_b tenth (max_range ex_lidar) = Ret ([[5; 1]; [6; 1]; [7; 1]; [8; 1]; [8; 2]; [9; 2]; [10; 2]], Some [11; 2]) /\
  rescaled_cloud 2 su_cloud1 (in_quarters su_cloud1) /\
  exists free, cast_rays 99 su_o su_cloud1 (mkBounds su_b su_b) tenth (max_range ex_lidar) = Ret (free, [[11; 2]; [0; 3]]).
Proof. exact su_ray. Qed.
Example C84_map_example : rescaled_size 2 tenth su_r' /\ rescaled_lidar 2 ex_lidar su_lidar' /\ Forall (scan_in 2) su_scans /\ Forall2 (rescaled_scan 2) su_scans su_scans' /\
  (forall g, gm_new tenth (bounds_empty 2) 4 f0 = Ret g -> forall before o c after g0 g1, su_scans = before ++ (o, c) :: after ->
    built 99 same_order same_order ex_lidar g before = Ret g0 -> gm_expand_bounds g0 (pc_bounds c) f0 = Ret g1 -> box_usual_in 2 (gm_bounds g1)) /\
  exists g g2, gm_new tenth (bounds_empty 2) 4 f0 = Ret g /\ length (bmin (gm_bounds g)) = 2%nat /\ length (bmax (gm_bounds g)) = 2%nat /\
    built 99 same_order same_order ex_lidar g su_scans = Ret g2 /\ occupied ex_lidar g2 [11; 14] = Ret true /\ occupied ex_lidar g2 [5; 13] = Ret false /\
    exists v, gm_get g2 [5; 13] = Ret v /\ fltb v f0 = true.
Proof. exact (conj su_size (conj su_model (conj su_in (conj su_rescaled (conj su_fits su_result))))). Qed.

(** The ranges are needed: a ray 2^-76 long goes down the second axis, one 2^76 times as long does not. *)
Theorem C84_any_size_refuted : exists k (o o' e e' b b' : point) r r' m m' rc rc' oe oe', length o = 2%nat /\ length e = 2%nat /\ length b = 2%nat /\
  Forall finite (o ++ o' ++ e ++ e' ++ b ++ b' ++ [m; m']) /\ res_ok r /\ res_ok r' /\
  Forall2 (fun x y => real y = (real x * bpow radix2 k)%R) (o ++ e ++ b ++ [r; m]) (o' ++ e' ++ b' ++ [r'; m']) /\
  cast_ray F32A 9 o e b r m = Ret (rc, oe) /\ cast_ray F32A 9 o' e' b' r' m' = Ret (rc', oe') /\ In [0; -1] rc /\ ~ In [0; -1] rc'.
Proof. exact tiny_unit. Qed.
Print Assumptions C84_any_size_refuted.

(** And so is the power of two: with everything three times as large, a point falls into another cell. *)
Theorem C84_any_factor_refuted : exists p p' b b' r r', usual p /\ usual p' /\ usual b /\ usual b' /\ usual_size r /\ usual_size r' /\
  (real p' = real p * 3 /\ real b' = real b * 3 /\ real r' = real r * 3)%R /\ cell_from_point F32A [p] [b] r = [3] /\ cell_from_point F32A [p'] [b'] r' = [2].
Proof. exact thrice. Qed.
Print Assumptions C84_any_factor_refuted.
