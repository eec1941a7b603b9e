(** Recordings and what they say about the cells of the world, in exact arithmetic. *)
From Coq Require Import ZArith List Reals.
From Verif Require Import Base F32 Arith Geom NdArray GridMap RayCaster NoiseModel Spec SpecMap SpecNoise SpecBack SpecMeet SpecNear.
Open Scope R_scope.

(** World cell [w] is centred at [w * r]: the lower corner of the grid is the origin. *)
Definition world (d : nat) : list R := repeat 0 d.

(** The sensor and the points of a scan where they really are. *)
Definition exact_scan : Type := (list R * list (list R))%type.

(** A beam of the scan ends in the cell; a beam passes it. *)
Definition scan_hits (d : nat) (M r : R) (s : exact_scan) (w : cell) : Prop :=
  exists q, In q (snd s) /\ w = nearest_cell (world d) r q /\ beam_arrives M (world d) r (fst s) q.
Definition scan_passes (d : nat) (M r : R) (s : exact_scan) (w : cell) : Prop :=
  exists q, In q (snd s) /\ beam_passes M (world d) r (fst s) q w.
Definition verdict (d : nat) (M r : R) (w : cell) (s : exact_scan) (v : option bool) : Prop :=
  match v with
  | Some true => scan_hits d M r s w
  | Some false => scan_passes d M r s w /\ ~ scan_hits d M r s w
  | None => ~ scan_hits d M r s w /\ ~ scan_passes d M r s w
  end.

(** Sensor [o] and points [cloud] are those of [s] up to a 128th of a cell per axis.  The beams are in range of the
    map [g] once it has grown, and those of [s] are clear of corners, borders and the limit [m]. *)
Definition records (d : nat) (m r : f32) (g : grid_map f32) (s : exact_scan) (o : point) (cloud : matrix) : Prop :=
  length o = d /\ request_ok d r (pc_bounds cloud) /\ off_by_cells (/ 128) (real r) (map real o) (fst s) /\
  forall g1, gm_expand_bounds g (pc_bounds cloud) f0 = Ret g1 ->
    Forall2 (fun q p => length p = d /\ ray_short r o p (bmin (gm_bounds g1)) /\ off_by_cells (/ 128) (real r) (map real p) q /\
      clear_segment (real m) (world d) (real r) (fst s) q) (snd s) (pc_points cloud).

(** [recorded o L]: [o] is the result of integrating recordings of the scans [L], in this order, into a new map. *)
Inductive recorded (d : nat) (r : f32) (t : Z) (m : lidar) : occ_map -> list exact_scan -> Prop :=
| recorded_new : forall o, om_new d m r t = Ret o -> recorded d r t m o []
| recorded_next : forall o L s fuel of oo origin cloud o', recorded d r t m o L -> is_order of -> is_order oo ->
    records d (max_range m) r (om_grid o) s origin cloud -> (3072 <= fuel)%nat ->
    om_integrate fuel of oo o origin cloud = Ret o' -> recorded d r t m o' (L ++ [s])
| recorded_track : forall o L x, recorded d r t m o L ->
    recorded d r t m (mkOcc (gm_set_track_changes (om_grid o) x) (om_model o)) L
| recorded_clear : forall o L, recorded d r t m o L ->
    recorded d r t m (mkOcc (gm_clear_changed_cells (om_grid o)) (om_model o)) L.
