(** C92: f32 rays and exact rays. *)
From Coq Require Import ZArith List Bool Reals.
From Flocq Require Import Core BinarySingleNaN.
From Verif Require Import Base F32 Arith Geom RayCaster Spec SpecBack SameProofs LimitSameProofs ExamplesSame.
Open Scope Z_scope.

(** The f32 ray passes through the same cells in the same order as the ray in exact arithmetic between the same points, when the
    segment keeps a sixteenth of a cell away from corners, and its ends from borders. *)
Theorem C92_same_ray : forall d (o e b : point) (r : f32), (d = 2 \/ d = 3)%nat -> length o = d -> length e = d -> length b = d -> ray_short r o e b ->
  off_borders (/ 16)%R (map real b) (real r) (map real o) -> off_borders (/ 16)%R (map real b) (real r) (map real e) ->
  no_corner_near (/ 16)%R (map real b) (real r) (map real o) (map real e) ->
  let oc := cell_from_point F32A o b r in let ec := cell_from_point F32A e b r in
  nearest_cell (map real b) (real r) (map real o) = oc /\ nearest_cell (map real b) (real r) (map real e) = ec /\
  forall fuel m m', fltb f0 m = false -> (m' <= 0)%R -> manhattan oc ec <= Z.of_nat fuel ->
  exists path, cast_ray F32A fuel o e b r m = Ret (path, Some ec) /\
    cast_ray RealA fuel (map Fin (map real o)) (map Fin (map real e)) (map Fin (map real b)) (Fin (real r)) (Fin m') = Ret (path, Some ec).
Proof. exact same_ray. Qed.
Print Assumptions C92_same_ray.

Example C92_example : ray_short f1 sm_o sm_e sm_b /\
  off_borders (/ 16)%R (map real sm_b) (real f1) (map real sm_o) /\ off_borders (/ 16)%R (map real sm_b) (real f1) (map real sm_e) /\
  no_corner_near (/ 16)%R (map real sm_b) (real f1) (map real sm_o) (map real sm_e) /\
  cast_ray F32A 20 sm_o sm_e sm_b f1 f0 = Ret ([[0; 0; 0]; [1; 0; 0]; [1; 0; 1]; [2; 0; 1]; [2; 1; 1]; [3; 1; 1]], Some [4; 1; 1]).
Proof. exact sm_case. Qed.

(** The same for rays with a length limit, cut or not, when no cell near the segment has its centre within a thirty-second of a cell of the limit. *)
Theorem C92_limited : forall d (o e b : point) (r : f32), (d = 2 \/ d = 3)%nat -> length o = d -> length e = d -> length b = d -> ray_short r o e b ->
  off_borders (/ 16)%R (map real b) (real r) (map real o) -> off_borders (/ 16)%R (map real b) (real r) (map real e) ->
  no_corner_near (/ 16)%R (map real b) (real r) (map real o) (map real e) ->
  forall fuel m, fltb f0 m = true -> finite m -> (real m <= 1048576 * real r)%R -> limit_clear (/ 32)%R (real m) (map real b) (real r) (map real o) (map real e) ->
  manhattan (cell_from_point F32A o b r) (cell_from_point F32A e b r) <= Z.of_nat fuel ->
  exists rc oe, cast_ray F32A fuel o e b r m = Ret (rc, oe) /\
    cast_ray RealA fuel (map Fin (map real o)) (map Fin (map real e)) (map Fin (map real b)) (Fin (real r)) (Fin (real m)) = Ret (rc, oe).
Proof. exact same_limited. Qed.
Print Assumptions C92_limited.

Example C92_limited_example : fltb f0 sm_m = true /\ finite sm_m /\ (real sm_m <= 1048576 * real f1)%R /\
  limit_clear (/ 32)%R (real sm_m) (map real sm_b) (real f1) (map real sm_o) (map real sm_e) /\
  cast_ray F32A 20 sm_o sm_e sm_b f1 sm_m = Ret ([[0; 0; 0]; [1; 0; 0]; [1; 0; 1]; [2; 0; 1]; [2; 1; 1]], None).
Proof. exact sm_limited. Qed.

(** Hence the free and occupied cells of a scan are those of exact rays. *)
Theorem C92_scan : forall d fuel (o : point) cloud (B : bounds) r m, (d = 2 \/ d = 3)%nat -> length o = d -> length (bmin B) = d ->
  fltb f0 m = true -> finite m -> (real m <= 1048576 * real r)%R -> (3072 <= fuel)%nat ->
  (forall p, In p (pc_points cloud) -> length p = d /\ clear_ray m r (bmin B) o p) ->
  let exact p := cast_ray RealA fuel (map Fin (map real o)) (map Fin (map real p)) (map Fin (map real (bmin B))) (Fin (real r)) (Fin (real m)) in
  exists free occ, cast_rays fuel o cloud B r m = Ret (free, occ) /\
    (forall c, In c occ <-> exists p rc, In p (pc_points cloud) /\ exact p = Ret (rc, Some c)) /\
    (forall c, In c free <-> (exists p rc oe, In p (pc_points cloud) /\ exact p = Ret (rc, oe) /\ In c rc) /\ ~ In c occ).
Proof. exact same_scan. Qed.
Print Assumptions C92_scan.

Example C92_scan_example : fltb f0 sm_m = true /\ finite sm_m /\ (real sm_m <= 1048576 * real f1)%R /\
  (forall p, In p (pc_points sm_cloud) -> length p = 3%nat /\ clear_ray sm_m f1 sm_b sm_o p) /\
  cast_rays 20 sm_o sm_cloud (mkBounds sm_b sm_e) f1 sm_m = Ret ([[0; 0; 0]; [1; 0; 0]; [1; 0; 1]; [2; 0; 1]; [2; 1; 1]], [[2; 0; 0]]).
Proof. exact sm_scan. Qed.

(** Near a corner the two rays may be different, though the exact ray meets no corner and the ends are well inside their cells. *)
Theorem C92_near_refuted : exists (o e b : point) r, Forall finite o /\ Forall finite e /\ Forall finite b /\ real r = 1%R /\
  off_borders (/ 16)%R (map real b) (real r) (map real o) /\ off_borders (/ 16)%R (map real b) (real r) (map real e) /\
  no_corner (map real b) (real r) (map real o) (map real e) /\
  exists fuel path path' ec, cast_ray F32A fuel o e b r f0 = Ret (path, Some ec) /\
    cast_ray RealA fuel (map Fin (map real o)) (map Fin (map real e)) (map Fin (map real b)) (Fin (real r)) (Fin 0) = Ret (path', Some ec) /\ path <> path'.
Proof. exact bk_differs. Qed.
Print Assumptions C92_near_refuted.
