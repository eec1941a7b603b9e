(** What the properties of the noise model talk about. *)
From Coq Require Import ZArith List Bool Reals Permutation.
From Flocq Require Import Core BinarySingleNaN.
From Verif Require Import Base F32 Arith Geom NdArray GridMap RayCaster NoiseModel Spec SpecMap.
Open Scope Z_scope.

Definition probability (p : f32) : Prop := finite p /\ (0 <= real p <= 1)%R.

(** Evidence has the expected sign and zero lies between the limits. *)
Definition signs_ok (m : lidar) : Prop :=
  fle f0 (hit_logodds m) /\ fle (miss_logodds m) f0 /\ fle (min_logodds m) f0 /\ fle f0 (max_logodds m).

(** The iteration yields exactly the elements of the set, each once. *)
Definition is_order (ord : iteration_order) : Prop := forall s, Permutation (ord s) s.

(** Every occupancy map that a sequence of integrations produces from a new one. *)
Inductive integrated (d : nat) (r : f32) (t : Z) (m : lidar) : occ_map -> Prop :=
| int_new : forall o, om_new d m r t = Ret o -> integrated d r t m o
| int_cloud : forall o fuel of oo origin cloud o', integrated d r t m o -> is_order of -> is_order oo ->
    om_integrate fuel of oo o origin cloud = Ret o' -> integrated d r t m o'
| int_track : forall o x, integrated d r t m o ->
    integrated d r t m (mkOcc (gm_set_track_changes (om_grid o) x) (om_model o))
| int_clear : forall o, integrated d r t m o ->
    integrated d r t m (mkOcc (gm_clear_changed_cells (om_grid o)) (om_model o)).

(** The maps are the same except for the order of the reported cells. *)
Definition same_map {A} (g g' : grid_map A) : Prop :=
  gm_data g = gm_data g' /\ gm_bounds g = gm_bounds g' /\ gm_resolution g = gm_resolution g' /\
  gm_tile_size g = gm_tile_size g' /\ gm_track_changes g = gm_track_changes g' /\
  Permutation (gm_changed_cells g) (gm_changed_cells g').
Definition same_outcome {A} (a b : outcome (grid_map A)) : Prop :=
  match a, b with
  | Ret g, Ret g' => same_map g g'
  | Panic, Panic => True
  | NoFuel, NoFuel => True
  | _, _ => False
  end.

(** [f] applied [n] times *)
Fixpoint times {A} (n : nat) (f : A -> A) (x : A) : A :=
  match n with O => x | S n' => times n' f (f x) end.

(** One observation of a cell with value [v]: a hit or a miss. *)
Definition evidence (m : lidar) (v : f32) (hit : bool) : f32 :=
  if hit then fmin (fadd v (hit_logodds m)) (max_logodds m)
  else fmax (fadd v (miss_logodds m)) (min_logodds m).

(** [observed o L]: [o] is the result of integrating clouds into a new map, and [L w] lists
    the observations of world cell [w], oldest first: a hit for each cloud in which a ray
    ended there, a miss for each cloud in which rays only passed. *)
Inductive observed (d : nat) (r : f32) (t : Z) (m : lidar) : occ_map -> (cell -> list bool) -> Prop :=
| obs_new : forall o L, om_new d m r t = Ret o -> (forall w, L w = []) -> observed d r t m o L
| obs_cloud : forall o L fuel of oo origin cloud o' cb' free occ L', observed d r t m o L ->
    is_order of -> is_order oo -> request_ok d r (pc_bounds cloud) ->
    om_integrate fuel of oo o origin cloud = Ret o' -> covers_cells d r t (om_grid o') cb' ->
    cast_rays fuel origin cloud (gm_bounds (om_grid o')) r (max_range m) = Ret (free, occ) ->
    (forall c, In c occ -> L' (map2 Z.add (cmin cb') c) = L (map2 Z.add (cmin cb') c) ++ [true]) ->
    (forall c, In c free -> L' (map2 Z.add (cmin cb') c) = L (map2 Z.add (cmin cb') c) ++ [false]) ->
    (forall w, (forall c, In c occ \/ In c free -> w <> map2 Z.add (cmin cb') c) -> L' w = L w) ->
    observed d r t m o' L'
| obs_track : forall o L x, observed d r t m o L ->
    observed d r t m (mkOcc (gm_set_track_changes (om_grid o) x) (om_model o)) L
| obs_clear : forall o L, observed d r t m o L ->
    observed d r t m (mkOcc (gm_clear_changed_cells (om_grid o)) (om_model o)) L.

(** A beam of a model with limit [m] is followed at least up to distance [s]: there is no
    limit, or it is a full cell farther away. *)
Definition in_limit (m r : f32) (s : R) : Prop := fltb f0 m = false \/ (s + real r <= real m)%R.
Definition limit_near (m r : f32) : Prop := fltb f0 m = false \/ (finite m /\ (real m <= 1048576 * real r)%R).
(** The value of a world cell in a map, or the given default outside of the map. *)
Definition world_value {A} (g : grid_map A) (cb : cell_bounds) (v : A) (w : cell) (x : A) : Prop :=
  (in_box cb w -> gm_get g (map2 Z.sub w (cmin cb)) = Ret x) /\ (~ in_box cb w -> x = v).
(** [near_world h r w p]: the point [p] lies in world cell [w] grown by [h] cells on every side. World cell
    [w] is centred at [w * r]. *)
Definition near_world (h : R) (r : f32) (w : cell) (p : list R) : Prop :=
  forall i, (i < length w)%nat -> (Rabs (nth i p 0 - IZR (nth i w 0%Z) * real r) <= (/ 2 + h) * real r)%R.

(** ** Sequences of scans *)
(** The scan of [cloud] from [o] into [g] is in range: the points are near enough, the sensor is
    inside of the map once it has grown, the points are clear of its upper border, and the beams
    are at most 1023 cells long on each axis and end an eighth of a cell away from the borders. *)
Definition scan_ok (d : nat) (r : f32) (g : grid_map f32) (o : point) (cloud : matrix) : Prop :=
  matrix_ok cloud /\ nrows cloud = d /\ length o = d /\ request_ok d r (pc_bounds cloud) /\
  forall g1, gm_expand_bounds g (pc_bounds cloud) f0 = Ret g1 ->
    in_range (nd_shape (gm_data g1)) (gm_cell_from_point g1 o) /\
    forall p, In p (pc_points cloud) -> Forall2 (axis_safe r) p (bmax (pc_bounds cloud)) /\
      ray_short r o p (bmin (gm_bounds g1)) /\ world_clear (/ 8)%R r o p.

(** [scanned o L]: [o] is the result of integrating the scans [L], in this order, into a new map. *)
Inductive scanned (d : nat) (r : f32) (t : Z) (m : lidar) : occ_map -> list (point * matrix) -> Prop :=
| scanned_new : forall o, om_new d m r t = Ret o -> scanned d r t m o []
| scanned_next : forall o L fuel of oo origin cloud o', scanned d r t m o L -> is_order of -> is_order oo ->
    scan_ok d r (om_grid o) origin cloud -> (3072 <= fuel)%nat ->
    om_integrate fuel of oo o origin cloud = Ret o' -> scanned d r t m o' (L ++ [(origin, cloud)])
| scanned_track : forall o L x, scanned d r t m o L ->
    scanned d r t m (mkOcc (gm_set_track_changes (om_grid o) x) (om_model o)) L
| scanned_clear : forall o L, scanned d r t m o L ->
    scanned d r t m (mkOcc (gm_clear_changed_cells (om_grid o)) (om_model o)) L.

(** What a scan with limit [m] says about world cell [w], decided by geometry alone: a beam
    ends well inside of the cell; a beam passes well through it and none ends near it; no beam
    comes near it, or it is beyond the limit. *)
Definition says (m r : f32) (w : cell) (scan : point * matrix) (v : option bool) : Prop :=
  let o := map real (fst scan) in
  let beam p u := seg o (map real p) u in
  let length_of p := dist (map real p) o in
  let pts := pc_points (snd scan) in
  match v with
  | Some true => exists p, In p pts /\ near_world (- / 8)%R r w (map real p) /\ in_limit m r (length_of p)
  | Some false => (exists p u, In p pts /\ (0 <= u <= 1)%R /\ near_world (- / 8)%R r w (beam p u) /\ in_limit m r (u * length_of p)%R) /\
      forall q, In q pts -> ~ near_world (/ 8)%R r w (map real q)
  | None => (forall p u, In p pts -> (0 <= u <= 1)%R -> ~ near_world (/ 8)%R r w (beam p u)) \/
      (fltb f0 m = true /\ (real m + 3 * real r < dist (map (fun k => IZR k * real r) w) o)%R)
  end.
Definition observe (m : lidar) (v : f32) (x : option bool) : f32 :=
  match x with Some h => evidence m v h | None => v end.

(** ** Changed scenes *)
(** The numbers of the model are finite and of moderate size. *)
Definition moderate_model (m : lidar) : Prop := Forall (fun x => finite x /\ (Rabs (real x) <= bpow radix2 100)%R)
  [hit_logodds m; miss_logodds m; min_logodds m; max_logodds m; occupied_threshold_logodds m].
(** Evidence of size [s] is not too small to be added to values between the limits. *)
Definition counts (m : lidar) (s : R) : Prop :=
  (0 < s /\ Rabs (real (min_logodds m)) <= 4096 * s /\ Rabs (real (max_logodds m)) <= 4096 * s)%R.
(** How many of the scans hit ([h = true]) or crossed ([h = false]) the cell. *)
Definition seen (h : bool) (vs : list (option bool)) : nat :=
  length (filter (fun v => match v with Some b => Bool.eqb b h | None => false end) vs).

(** ** Playing a recording round and round *)
(** The maps differ at most in what is tracked. *)
Definition only_tracking (o o' : occ_map) : Prop :=
  om_model o = om_model o' /\ gm_data (om_grid o) = gm_data (om_grid o') /\ gm_bounds (om_grid o) = gm_bounds (om_grid o') /\
  gm_resolution (om_grid o) = gm_resolution (om_grid o') /\ gm_tile_size (om_grid o) = gm_tile_size (om_grid o').
(** [X k], for [k <= K], is the map after the first [k] scans when [scans] are integrated in
    turn, again and again, starting with a new map. *)
Definition replayed (d : nat) (r : f32) (t : Z) (m : lidar) (scans : list (point * matrix)) (X : nat -> occ_map) (K : nat) : Prop :=
  (exists o, om_new d m r t = Ret o /\ only_tracking o (X O)) /\
  forall k, (k < K)%nat -> exists origin cloud fuel of oo o o', nth_error scans (k mod length scans) = Some (origin, cloud) /\
    is_order of /\ is_order oo /\ only_tracking (X k) o /\ om_integrate fuel of oo o origin cloud = Ret o' /\ only_tracking o' (X (S k)).
(** The evidence can be added without producing NaN. *)
Definition addable (m : lidar) : Prop :=
  finite (hit_logodds m) /\ finite (miss_logodds m) /\ is_nan (min_logodds m) = false /\ is_nan (max_logodds m) = false.
(** The same box, and in every cell the same number and the same state. *)
Definition reads_same (o o' : occ_map) : Prop :=
  gm_bounds (om_grid o) = gm_bounds (om_grid o') /\ nd_shape (gm_data (om_grid o)) = nd_shape (gm_data (om_grid o')) /\
  forall c, cells_in_isize c -> om_occupied o c = om_occupied o' c /\
    forall v, gm_get (om_grid o) c = Ret v -> exists v', gm_get (om_grid o') c = Ret v' /\ feqb v v' = true.

(** ** The order of scans *)
(** The evidence of [a] hits and [b] misses, added up exactly. *)
Definition added_up (m : lidar) (a b : nat) : R := (INR a * real (hit_logodds m) + INR b * real (miss_logodds m))%R.
(** What [n] roundings of numbers between the limits can amount to. *)
Definition slack (m : lidar) (n : nat) : R :=
  (INR n * (bpow radix2 (-24) * Rmax (Rabs (real (min_logodds m))) (Rabs (real (max_logodds m)))))%R.
(** [a] hits alone do not reach the upper limit, [b] misses alone do not reach the lower one. *)
Definition unlimited (m : lidar) (a b : nat) : Prop :=
  (added_up m a 0 + slack m (a + b) <= real (max_logodds m) /\ real (min_logodds m) <= added_up m 0 b - slack m (a + b))%R.
