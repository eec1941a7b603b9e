(** Recordings by a sensor without a length limit, in exact arithmetic. *)
From Coq Require Import ZArith List Reals.
From Verif Require Import Base F32 Arith Geom NdArray GridMap RayCaster NoiseModel Spec SpecMap SpecNoise SpecBack SpecMeet SpecNear SpecWorld.
Open Scope R_scope.

(** A point of the scan lies in the cell; the segment to a point that lies elsewhere meets it. *)
Definition full_hits (d : nat) (r : R) (s : exact_scan) (w : cell) : Prop := exists q, In q (snd s) /\ w = nearest_cell (world d) r q.
Definition full_passes (d : nat) (r : R) (s : exact_scan) (w : cell) : Prop :=
  exists q, In q (snd s) /\ meets (world d) r (fst s) q w /\ w <> nearest_cell (world d) r q.
Definition full_verdict (d : nat) (r : R) (w : cell) (s : exact_scan) (v : option bool) : Prop :=
  match v with
  | Some true => full_hits d r s w
  | Some false => full_passes d r s w /\ ~ full_hits d r s w
  | None => ~ full_hits d r s w /\ ~ full_passes d r s w
  end.

(** Sensor [o] and points [cloud] are those of [s] up to a 128th of a cell per axis.  The beams are in range of the
    map [g] once it has grown, and those of [s] end clear of borders and are clear of corners. *)
Definition full_records (d : nat) (r : f32) (g : grid_map f32) (s : exact_scan) (o : point) (cloud : matrix) : Prop :=
  length o = d /\ request_ok d r (pc_bounds cloud) /\ off_by_cells (/ 128) (real r) (map real o) (fst s) /\
  forall g1, gm_expand_bounds g (pc_bounds cloud) f0 = Ret g1 ->
    Forall2 (fun q p => length p = d /\ ray_short r o p (bmin (gm_bounds g1)) /\ off_by_cells (/ 128) (real r) (map real p) q /\
      off_borders (/ 8) (world d) (real r) (fst s) /\ off_borders (/ 8) (world d) (real r) q /\ no_corner_near (/ 8) (world d) (real r) (fst s) q) (snd s) (pc_points cloud).

(** [full_recorded o L]: [o] is the result of integrating recordings of the scans [L], in this order, into a new map. *)
Inductive full_recorded (d : nat) (r : f32) (t : Z) (m : lidar) : occ_map -> list exact_scan -> Prop :=
| full_new : forall o, om_new d m r t = Ret o -> full_recorded d r t m o []
| full_next : forall o L s fuel of oo origin cloud o', full_recorded d r t m o L -> is_order of -> is_order oo ->
    full_records d r (om_grid o) s origin cloud -> (3072 <= fuel)%nat ->
    om_integrate fuel of oo o origin cloud = Ret o' -> full_recorded d r t m o' (L ++ [s])
| full_track : forall o L x, full_recorded d r t m o L ->
    full_recorded d r t m (mkOcc (gm_set_track_changes (om_grid o) x) (om_model o)) L
| full_clear : forall o L, full_recorded d r t m o L ->
    full_recorded d r t m (mkOcc (gm_clear_changed_cells (om_grid o)) (om_model o)) L.

(** The scan was taken in a world with these walls: every point is at a wall, and the segment to it meets no other. *)
Definition full_sees (d : nat) (r : R) (wall : cell -> Prop) (s : exact_scan) : Prop :=
  forall q, In q (snd s) -> wall (nearest_cell (world d) r q) /\
    forall w, meets (world d) r (fst s) q w -> w <> nearest_cell (world d) r q -> ~ wall w.

(** All beams of the scan arrive in spite of the limit [M]. *)
Definition all_arrive (d : nat) (M r : R) (s : exact_scan) : Prop := forall q, In q (snd s) -> beam_arrives M (world d) r (fst s) q.
(** The same model with another limit. *)
Definition with_limit (m : lidar) (M : f32) : lidar :=
  mkLidar (hit_logodds m) (miss_logodds m) (min_logodds m) (max_logodds m) (occupied_threshold_logodds m) M.
