(** C29-C38, C62, C63, C79: ray casting. *)
From Coq Require Import ZArith List Bool Reals Lra Lia Permutation.
From Flocq Require Import Core BinarySingleNaN.
From Verif Require Import Base F32 Arith Geom RayCaster Spec SpecRay CastProofs RaysProofs RayRange MergeProofs IdealRay RayReach NoiseProofs IntegrateRange RayLimit Examples ExamplesRay ExamplesMerge.
Open Scope Z_scope.

Theorem C29_connected : forall fuel d o e b r m rc oe, (d = 2 \/ d = 3)%nat ->
  length o = d -> length e = d -> length b = d ->
  cast_ray F32A fuel o e b r m = Ret (rc, oe) ->
  connected (ray_signs o e) rc /\ (forall c l, rc = c :: l -> c = cell_from_point F32A o b r).
Proof. exact cast_connected. Qed.
Print Assumptions C29_connected.

(** The direction signs point from the origin to the end. *)
Theorem C29_toward_end : forall (o e : point), length o = length e -> Forall finite o -> Forall finite e ->
  let L := fsqrt (square_length (map2 fsub e o)) in finite L -> fltb f0 L = true ->
  forall i, (i < length o)%nat ->
    (fle (nth i o f0) (nth i e f0) -> 0 <= nth i (ray_signs o e) 0) /\
    (fle (nth i e f0) (nth i o f0) -> nth i (ray_signs o e) 0 <= 0).
Proof. exact ray_signs_toward. Qed.
Print Assumptions C29_toward_end.

Example C29_example :
  cast_ray F32A 20 ex_o ex_e ex_b f1 f0 =
    Ret ([[0; 1; 0]; [1; 1; 0]; [2; 1; 0]; [2; 1; 1]; [2; 2; 1]; [3; 2; 1]], Some [3; 3; 1]) /\
  Forall finite ex_o /\ Forall finite ex_e /\
  finite (fsqrt (square_length (map2 fsub ex_e ex_o))) /\ fltb f0 (fsqrt (square_length (map2 fsub ex_e ex_o))) = true.
Proof. exact (conj ex_ray ex_forward). Qed.

Theorem C30_same_cell : forall fuel d (o e b : point) r m, (d = 2 \/ d = 3)%nat -> length o = d ->
  cell_from_point F32A o b r = cell_from_point F32A e b r ->
  cast_ray F32A fuel o e b r m = Ret ([], Some (cell_from_point F32A o b r)).
Proof. exact cast_same_cell. Qed.
Print Assumptions C30_same_cell.

Example C30_example :
  cell_from_point F32A ex_o ex_b f1 = cell_from_point F32A [f32_lit 1 8; f32_lit (-5) 4; f32_lit 1 3] ex_b f1.
Proof. exact ex_same_cell. Qed.

Theorem C31_completed : forall fuel d o e b r m rc c, (d = 2 \/ d = 3)%nat ->
  length o = d -> length e = d -> length b = d ->
  cast_ray F32A fuel o e b r m = Ret (rc, Some c) ->
  let oc := cell_from_point F32A o b r in
  c = cell_from_point F32A e b r /\ ~ In c rc /\ NoDup rc /\
  Z.of_nat (length rc) = manhattan oc c /\ (forall x, In x rc -> between oc c x).
Proof. exact cast_completed. Qed.
Print Assumptions C31_completed.

Example C31_example :
  cast_ray F32A 20 ex_o ex_e ex_b f1 f0 =
    Ret ([[0; 1; 0]; [1; 1; 0]; [2; 1; 0]; [2; 1; 1]; [2; 2; 1]; [3; 2; 1]], Some [3; 3; 1]).
Proof. exact ex_ray. Qed.

Theorem C32_limited : forall fuel d o e b r m rc oe, (d = 2 \/ d = 3)%nat ->
  length o = d -> length e = d -> length b = d -> fltb f0 m = true ->
  cast_ray F32A fuel o e b r m = Ret (rc, oe) ->
  Forall (fun c => ~ beyond o b r m c) (tl rc) /\
  (oe = None -> exists x, beyond o b r m x /\ x <> cell_from_point F32A e b r /\
     (connected (ray_signs o e) (rc ++ [x]) \/ rc = [x])).
Proof. exact cast_limited. Qed.
Print Assumptions C32_limited.

(** The limited ray is the unlimited one, cut before the first cell that is too far. *)
Theorem C32_prefix : forall fuel d o e b r m m0 rc0 c, (d = 2 \/ d = 3)%nat ->
  length o = d -> length e = d -> length b = d -> fltb f0 m0 = false -> fltb f0 m = true ->
  cast_ray F32A fuel o e b r m0 = Ret (rc0, Some c) ->
  (Forall (fun x => ~ beyond o b r m x) (tl rc0) ->
     cast_ray F32A fuel o e b r m = Ret (rc0, Some c)) /\
  (forall pre x post, rc0 = pre ++ x :: post -> pre <> [] ->
     Forall (fun x => ~ beyond o b r m x) (tl pre) -> beyond o b r m x ->
     cast_ray F32A fuel o e b r m = Ret (pre, None)).
Proof. exact cast_prefix. Qed.
Print Assumptions C32_prefix.

Theorem C32_unlimited : forall fuel (o e b : point) r m m', fltb f0 m = false -> fltb f0 m' = false ->
  cast_ray F32A fuel o e b r m = cast_ray F32A fuel o e b r m'.
Proof. exact cast_unlimited. Qed.
Print Assumptions C32_unlimited.

(** The step bound of the model does not influence a result. *)
Theorem C32_fuel_irrelevant : forall fuel fuel' (o e b : point) r m, (fuel <= fuel')%nat ->
  cast_ray F32A fuel o e b r m <> NoFuel ->
  cast_ray F32A fuel' o e b r m = cast_ray F32A fuel o e b r m.
Proof. exact cast_fuel. Qed.
Print Assumptions C32_fuel_irrelevant.

Example C32_example :
  cast_ray F32A 20 ex_o ex_e ex_b f1 (f32_of_Z 2) = Ret ([[0; 1; 0]; [1; 1; 0]; [2; 1; 0]], None) /\
  cast_ray F32A 20 ex_o ex_e ex_b f1 f0 =
    Ret ([[0; 1; 0]; [1; 1; 0]; [2; 1; 0]; [2; 1; 1]; [2; 2; 1]; [3; 2; 1]], Some [3; 3; 1]).
Proof. exact (conj ex_ray_cut ex_ray). Qed.

(** C33, "cast_ray returns for every origin, end, bounds, positive resolution and
    max_len", is false: without a length limit a ray can pass its end cell ... *)
Theorem C33_cast_ray_returns_refuted : exists (o e b : point) (r : f32),
  length o = 2%nat /\ length e = 2%nat /\ length b = 2%nat /\
  Forall finite o /\ Forall finite e /\ Forall finite b /\ finite r /\ fltb f0 r = true /\
  forall fuel m res, fltb f0 m = false -> cast_ray F32A fuel o e b r m <> Ret res.
Proof. exact never_returns. Qed.
Print Assumptions C33_cast_ray_returns_refuted.

(** ... and with a limit it can fail to move when the squared length overflows. *)
Theorem C33_limited_ray_returns_refuted : exists (o e b : point) (r m : f32),
  length o = 2%nat /\ length e = 2%nat /\ length b = 2%nat /\
  Forall finite o /\ Forall finite e /\ Forall finite b /\ finite r /\ fltb f0 r = true /\
  finite m /\ fltb f0 m = true /\
  forall fuel res, cast_ray F32A fuel o e b r m <> Ret res.
Proof. exact limited_never_returns. Qed.
Print Assumptions C33_limited_ray_returns_refuted.

(** What does hold.  The full statement would be
    [exists res, cast_ray F32A fuel o e b r m = Ret res] for some [fuel] and every input;
    here the ray is in range and its end a sixteenth of a cell away from every border.
    C35 and C38 are two further cases. *)
Theorem C33_returns_partial : forall d, (d = 2 \/ d = 3)%nat -> forall (o e b : point) (r : f32),
  length o = d -> length e = d -> length b = d -> ray_short r o e b -> end_clear (/ 16)%R r o e b ->
  forall fuel m, (3072 <= fuel)%nat -> exists rc oe, cast_ray F32A fuel o e b r m = Ret (rc, oe) /\
    (fltb f0 m = false -> oe = Some (cell_from_point F32A e b r)) /\
    (forall x, In x rc -> exists u, (0 <= u <= 1)%R /\
       in_grown_cell (/ 16) (map real b) (real r) x (seg (map real o) (map real e) u)).
Proof. exact reach_returns. Qed.
Print Assumptions C33_returns_partial.

(** For every ray without limit, whatever its numbers: it arrives after exactly as many steps as
    its cells are apart, or it never returns; then the loop runs on until an index overflows. *)
Theorem C33_decided_partial : forall d (o e b : point) r m, (d = 2 \/ d = 3)%nat -> length o = d -> length e = d -> length b = d -> fltb f0 m = false ->
  let oc := cell_from_point F32A o b r in let ec := cell_from_point F32A e b r in let n := Z.to_nat (manhattan oc ec) in
  (exists rc, length rc = n /\ forall fuel, (n <= fuel)%nat -> cast_ray F32A fuel o e b r m = Ret (rc, Some ec)) \/
  (forall fuel, (forall res, cast_ray F32A fuel o e b r m <> Ret res) /\
     (Forall (fun c => Z.abs c + Z.of_nat fuel < 2 ^ 63) oc -> cast_ray F32A fuel o e b r m = NoFuel)).
Proof. exact cast_decided. Qed.
Print Assumptions C33_decided_partial.

(** Which of the two: the ray returns exactly if its end cell lies on its way, that is if on any two
    axes the last border before the end is crossed before the first one behind it. *)
Theorem C33_condition_partial : forall d (o e b : point) r m, (d = 2 \/ d = 3)%nat -> length o = d -> length e = d -> length b = d -> fltb f0 m = false ->
  let oc := cell_from_point F32A o b r in let ec := cell_from_point F32A e b r in well_timed o e b r oc ->
  ((exists fuel res, cast_ray F32A fuel o e b r m = Ret res) <-> passes d o e b r oc ec).
Proof. exact cast_condition. Qed.
Print Assumptions C33_condition_partial.

Example C33_condition_example : well_timed w_o w_e w_b f1 [0; 1] /\ cell_from_point F32A w_o w_b f1 = [0; 1] /\ cell_from_point F32A w_e w_b f1 = [1; 1] /\
  nth 0 (first_crossings w_o w_e w_b f1 [0; 1]) f0 = nth 1 (first_crossings w_o w_e w_b f1 [0; 1]) f0 /\
  passes 2 w_o w_e w_b f1 [0; 1] [1; 0] /\ ~ passes 2 w_o w_e w_b f1 [0; 1] [1; 1].
Proof. exact tie_missed. Qed.

Example C33_example : ray_short f1 ex_o sl_e ex_b /\ end_clear (/ 16)%R f1 ex_o sl_e ex_b.
Proof. exact (conj sloped_short sloped_clear). Qed.

(** In exact arithmetic. *)
Theorem C34_ideal_ray : forall d, (d = 2 \/ d = 3)%nat -> forall (o e b : list R) (r : R),
  length o = d -> length e = d -> length b = d -> (0 < r)%R -> ends_inside b r o e ->
  cells_in_isize (nearest_cell b r o) -> cells_in_isize (nearest_cell b r e) ->
  let oc := nearest_cell b r o in let ec := nearest_cell b r e in
  forall fuel (m : R), (m <= 0)%R -> manhattan oc ec <= Z.of_nat fuel ->
  exists path, cast_ray RealA fuel (map Fin o) (map Fin e) (map Fin b) (Fin r) (Fin m) = Ret (path, Some ec) /\
    Z.of_nat (length path) = manhattan oc ec /\
    (forall x, In x (path ++ [ec]) -> exists u, (0 <= u <= 1)%R /\ in_closed_cell b r x (seg o e u)) /\
    (forall u y, length y = d -> (0 <= u <= 1)%R -> in_open_cell b r y (seg o e u) -> In y (path ++ [ec])).
Proof. exact ideal_cast. Qed.
Print Assumptions C34_ideal_ray.

Example C34_example : ends_inside [0; 0]%R 1 [0; 1 / 2]%R [3; 1]%R /\
  nearest_cell [0; 0]%R 1 [0; 1 / 2]%R = [0; 1] /\ nearest_cell [0; 0]%R 1 [3; 1]%R = [3; 1].
Proof. exact ideal_example. Qed.

Theorem C35_axis_aligned : forall d, (d = 2 \/ d = 3)%nat -> forall (o e b : point) (r : f32),
  length o = d -> length e = d -> length b = d -> ray_range r o e b ->
  let oc := cell_from_point F32A o b r in let ec := cell_from_point F32A e b r in
  forall fuel m a, (a < d)%nat -> fltb f0 m = false ->
  (forall i, (i < d)%nat -> i <> a -> real (nth i o f0) = real (nth i e f0)) ->
  let n := Z.to_nat (Z.abs (nth a ec 0 - nth a oc 0)) in (n <= fuel)%nat ->
  cast_ray F32A fuel o e b r m =
    Ret (map (fun q => upd oc a (nth a oc 0 + Z.sgn (nth a ec 0 - nth a oc 0) * Z.of_nat q)) (seq 0 n), Some ec).
Proof. exact axis_ray. Qed.
Print Assumptions C35_axis_aligned.

Example C35_example : ray_range fhalf ax_o ax_e ax_b /\
  (forall i, (i < 3)%nat -> i <> 1%nat -> real (nth i ax_o f0) = real (nth i ax_e f0)) /\
  cell_from_point F32A ax_o ax_b fhalf = [0; -7; 0]%Z /\ cell_from_point F32A ax_e ax_b fhalf = [0; 5; 0]%Z.
Proof. exact (conj axis_range (conj axis_apart axis_cells)). Qed.

Theorem C36_free_and_occupied : forall fuel o cloud b r m free occ,
  cast_rays fuel o cloud b r m = Ret (free, occ) ->
  let cast p := cast_ray F32A fuel o p (bmin b) r m in
  (forall p, In p (pc_points cloud) -> exists res, cast p = Ret res) /\
  (forall c, In c occ <-> exists p rc, In p (pc_points cloud) /\ cast p = Ret (rc, Some c)) /\
  (forall c, In c free <->
     (exists p rc oe, In p (pc_points cloud) /\ cast p = Ret (rc, oe) /\ In c rc) /\ ~ In c occ) /\
  NoDup free /\ NoDup occ.
Proof. exact cast_rays_sets. Qed.
Print Assumptions C36_free_and_occupied.

Theorem C36_returns : forall fuel o cloud b r m,
  (forall p, In p (pc_points cloud) -> exists res, cast_ray F32A fuel o p (bmin b) r m = Ret res) ->
  exists fo, cast_rays fuel o cloud b r m = Ret fo.
Proof. exact cast_rays_returns. Qed.
Print Assumptions C36_returns.

Theorem C36_fails : forall fuel o cloud b r m,
  (cast_rays fuel o cloud b r m = Panic ->
     exists p, In p (pc_points cloud) /\ cast_ray F32A fuel o p (bmin b) r m = Panic) /\
  (cast_rays fuel o cloud b r m = NoFuel ->
     exists p, In p (pc_points cloud) /\ cast_ray F32A fuel o p (bmin b) r m = NoFuel).
Proof. exact cast_rays_fails. Qed.
Print Assumptions C36_fails.

Example C36_example :
  cast_rays 20 [f0; f0] ex_cloud (mkBounds [f0; f0] [f0; f0]) f1 f0 = Ret ([[0; 0]; [1; 0]], [[3; 0]; [2; 0]]).
Proof. exact ex_rays. Qed.

Theorem C37_order_irrelevant : forall fuel o cloud cloud' b r m free occ,
  (forall p, In p (pc_points cloud) <-> In p (pc_points cloud')) ->
  cast_rays fuel o cloud b r m = Ret (free, occ) ->
  exists free' occ', cast_rays fuel o cloud' b r m = Ret (free', occ') /\
    Permutation free free' /\ Permutation occ occ'.
Proof. exact cast_rays_order. Qed.
Print Assumptions C37_order_irrelevant.

Example C37_example :
  (forall p, In p (pc_points ex_cloud) <->
             In p (pc_points (mkMatrix 2 3 [f32_of_Z 2; f0; f32_of_Z 3; f0; f32_of_Z 2; f0]))) /\
  cast_rays 20 [f0; f0] ex_cloud (mkBounds [f0; f0] [f0; f0]) f1 f0 = Ret ([[0; 0]; [1; 0]], [[3; 0]; [2; 0]]).
Proof. split; [|exact ex_rays]. intro p. cbn. tauto. Qed.

Theorem C38_limit_bounds_work : forall d, (d = 2 \/ d = 3)%nat -> forall (o e b : point) (r : f32),
  length o = d -> length e = d -> length b = d -> ray_range r o e b ->
  forall fuel m, fltb f0 m = true -> finite m -> (real m <= 1048576 * real r)%R ->
  (INR d * (real m / real r + 10) <= INR fuel)%R ->
  exists rc oe, cast_ray F32A fuel o e b r m = Ret (rc, oe).
Proof. exact limited_ray. Qed.
Print Assumptions C38_limit_bounds_work.

Example C38_example : ray_range fhalf ax_o ax_e ax_b /\ fltb f0 (f32_of_Z 3) = true /\ finite (f32_of_Z 3) /\
  (real (f32_of_Z 3) <= 1048576 * real fhalf)%R.
Proof. exact (conj axis_range limit_ok). Qed.

(** The f32 ray follows the segment up to a sixteenth of a cell. *)
Theorem C62_f32_ray : forall d, (d = 2 \/ d = 3)%nat -> forall (o e b : point) (r : f32),
  length o = d -> length e = d -> length b = d -> ray_short r o e b -> end_clear (/ 16)%R r o e b ->
  let oc := cell_from_point F32A o b r in let ec := cell_from_point F32A e b r in
  forall fuel m, fltb f0 m = false -> manhattan oc ec <= Z.of_nat fuel ->
  exists path, cast_ray F32A fuel o e b r m = Ret (path, Some ec) /\
    Z.of_nat (length path) = manhattan oc ec /\
    (forall x, In x (path ++ [ec]) -> exists u, (0 <= u <= 1)%R /\
       in_grown_cell (/ 16) (map real b) (real r) x (seg (map real o) (map real e) u)) /\
    (forall u y, length y = d -> (0 <= u <= 1)%R ->
       in_grown_cell (- / 16) (map real b) (real r) y (seg (map real o) (map real e) u) -> In y (path ++ [ec])).
Proof. exact reach_cast. Qed.
Print Assumptions C62_f32_ray.

Example C62_example : ray_short f1 ex_o sl_e ex_b /\ end_clear (/ 16)%R f1 ex_o sl_e ex_b /\
  cast_ray F32A 20 ex_o sl_e ex_b f1 f0 =
    Ret ([[0; 1; 0]; [1; 1; 0]; [2; 1; 0]; [2; 2; 0]; [2; 2; 1]; [3; 2; 1]], Some [3; 3; 1]).
Proof. exact (conj sloped_short (conj sloped_clear sloped_ray)). Qed.

Theorem C63_limited_f32_ray : forall d, (d = 2 \/ d = 3)%nat -> forall (o e b : point) (r : f32),
  length o = d -> length e = d -> length b = d -> ray_short r o e b -> end_clear (/ 16)%R r o e b ->
  forall fuel m, fltb f0 m = true -> finite m -> (real m <= 1048576 * real r)%R -> (3072 <= fuel)%nat ->
  let oc := cell_from_point F32A o b r in let ec := cell_from_point F32A e b r in
  exists rc oe, cast_ray F32A fuel o e b r m = Ret (rc, oe) /\ (oe = None \/ oe = Some ec) /\
    (forall x, In x rc -> x = oc \/ (dist (cell_centre (map real b) (real r) x) (map real o) <= real m + / 32 * real r)%R) /\
    (forall u y, length y = d -> (0 <= u <= 1)%R ->
       in_grown_cell (- / 16) (map real b) (real r) y (seg (map real o) (map real e) u) ->
       (u * dist (map real e) (map real o) + real r <= real m)%R -> In y rc \/ oe = Some y).
Proof. exact limited_cast. Qed.
Print Assumptions C63_limited_f32_ray.

Example C63_example : ray_short f1 ex_o sl_e ex_b /\ end_clear (/ 16)%R f1 ex_o sl_e ex_b /\
  fltb f0 (f32_of_Z 3) = true /\ finite (f32_of_Z 3) /\ (real (f32_of_Z 3) <= 1048576 * real f1)%R /\
  cast_ray F32A 20 ex_o sl_e ex_b f1 (f32_of_Z 3) = Ret ([[0; 1; 0]; [1; 1; 0]; [2; 1; 0]; [2; 2; 0]; [2; 2; 1]], None).
Proof. exact (conj sloped_short (conj sloped_clear sloped_limit)). Qed.

(** The cells of a ray are exactly the cells on its way that are nearer than its end. *)
Theorem C79_cells : forall fuel d (o e b : point) r m rc c x, (d = 2 \/ d = 3)%nat -> length o = d -> length e = d -> length b = d ->
  let oc := cell_from_point F32A o b r in well_timed o e b r oc ->
  cast_ray F32A fuel o e b r m = Ret (rc, Some c) ->
  (In x rc <-> passes d o e b r oc x /\ manhattan oc x < manhattan oc c).
Proof. exact ray_cells. Qed.
Print Assumptions C79_cells.

(** A ray that is cut ends before the first cell on its way that is too far. *)
Theorem C79_limited : forall fuel d (o e b : point) r m rc, (d = 2 \/ d = 3)%nat -> length o = d -> length e = d -> length b = d ->
  let oc := cell_from_point F32A o b r in well_timed o e b r oc ->
  cast_ray F32A fuel o e b r m = Ret (rc, None) ->
  (rc = [oc] /\ beyond o b r m oc) \/
  exists z, passes d o e b r oc z /\ beyond o b r m z /\ z <> cell_from_point F32A e b r /\
    forall x, In x rc <-> passes d o e b r oc x /\ manhattan oc x < manhattan oc z.
Proof. exact ray_cut_cells. Qed.
Print Assumptions C79_limited.

Theorem C79_in_range : forall d (o e b : point) r, (d = 2 \/ d = 3)%nat -> length o = d -> length e = d -> length b = d -> ray_range r o e b ->
  let oc := cell_from_point F32A o b r in oc <> cell_from_point F32A e b r -> well_timed o e b r oc.
Proof. exact range_timed. Qed.
Print Assumptions C79_in_range.

Example C79_example : ray_range f1 ex_o sl_e ex_b /\ cell_from_point F32A ex_o ex_b f1 <> cell_from_point F32A sl_e ex_b f1 /\
  passes 3 ex_o sl_e ex_b f1 (cell_from_point F32A ex_o ex_b f1) (cell_from_point F32A sl_e ex_b f1).
Proof. exact (conj (proj1 sloped_cells) (conj (proj2 sloped_cells) sloped_passes)). Qed.
Example C79_limited_example : well_timed ex_o sl_e ex_b f1 (cell_from_point F32A ex_o ex_b f1) /\
  cast_ray F32A 40 ex_o sl_e ex_b f1 f1 = Ret ([[0; 1; 0]; [1; 1; 0]], None).
Proof. exact (conj sloped_timed sloped_cut). Qed.
