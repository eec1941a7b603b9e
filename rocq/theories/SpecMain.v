(** What the properties of the whole program talk about. *)
From Coq Require Import ZArith List Bool Reals Permutation Sorted.
From Flocq Require Import Core BinarySingleNaN.
From Verif Require Import Base F32 F64 Arith Geom Kitti Spec SpecKitti Viz Pose SpecPose.
Open Scope Z_scope.

(** The directory can be listed; [names] are its entries in the order of names. *)
Definition in_name_order (d : directory) (names : list name) : Prop :=
  exists listed, listing d = IoOk (map (@IoOk name) listed) /\ Permutation names listed /\ StronglySorted name_before names.

(** What a pose file says. *)
Record oxt : Type := mkOxt { oxt_lat : f64; oxt_lon : f64; oxt_alt : f64; oxt_roll : f32; oxt_pitch : f32; oxt_yaw : f32 }.
Definition oxt_gps (v : oxt) : gps := (oxt_lat v, oxt_lon v, oxt_alt v).
Definition oxt_file (s : system) (d : directory) (n : name) (v : oxt) : Prop :=
  exists b fs, contents d n = IoOk b /\ is_text b /\ fields_of b fs /\ (6 <= length fs)%nat /\
    sys_parse64 s (nth 0 fs []) = Some (oxt_lat v) /\ sys_parse64 s (nth 1 fs []) = Some (oxt_lon v) /\
    sys_parse64 s (nth 2 fs []) = Some (oxt_alt v) /\ sys_parse32 s (nth 3 fs []) = Some (oxt_roll v) /\
    sys_parse32 s (nth 4 fs []) = Some (oxt_pitch v) /\ sys_parse32 s (nth 5 fs []) = Some (oxt_yaw v).
(** The points of a cloud file: the first three of every four words. *)
Definition cloud_file (s : system) (d : directory) (n : name) (m : matrix) : Prop :=
  exists b, contents d n = IoOk b /\ (length b mod 16 = 0)%nat /\ matrix_ok m /\ nrows m = 3%nat /\
    pc_points m = map (fun i => map (fun k => f32_of_bits (word_at (sys_order s) b (16 * i + 4 * k))) [0; 1; 2]%nat)
                      (seq 0 (length b / 16)).

(** Where the vehicle is at record [k] of [l]: relative to the first record. *)
Definition position (s : system) (l : list oxt) (k : nat) (v : oxt) : translation :=
  match k, l with
  | S _, v0 :: _ => gps_to_meters (sys_cos64 s) (oxt_gps v) (oxt_gps v0)
  | _, _ => (f0, f0, f0)
  end.
Definition rotation (s : system) (v : oxt) : quaternion F32A :=
  euler_quaternion F32A (sys_sin s) (sys_cos s) (oxt_roll v) (oxt_pitch v) (oxt_yaw v).
Definition coords (t : translation) : point := let '(x, y, z) := t in [x; y; z].

(** A folder with [n] pose files saying [vs] and as many clouds [ms], in the order of names. *)
Definition drive (s : system) (f : folder) (vs : list oxt) (ms : list matrix) : Prop :=
  folder_exists f = true /\ folder_is_dir f = true /\ length vs = length ms /\
  (exists names, in_name_order (oxts_data f) names /\ Forall2 (oxt_file s (oxts_data f)) names vs) /\
  (exists names, in_name_order (velodyne_data f) names /\ Forall2 (cloud_file s (velodyne_data f)) names ms).

(** ** The scene that a drive records, in exact arithmetic *)

(** The sensor and the points it sees, in the coordinates of the map. *)
Definition scene : Type := (list R * list (list R))%type.
Definition list3 (v : R * R * R) : list R := let '(x, y, z) := v in [x; y; z].
Definition scene_of (s : system) (vs : list oxt) (k : nat) (v : oxt) (m : matrix) : scene :=
  let t := coords (position s vs k v) in
  (map real t,
   map (fun p => list3 (plus3 (turned (real (oxt_roll v)) (real (oxt_pitch v)) (real (oxt_yaw v)) (triple p)) (triple t))) (pc_points m)).
(** The scenes of the frames, in order. *)
Definition scenes_of (s : system) (vs : list oxt) (ms : list matrix) (scs : list scene) : Prop :=
  length scs = length vs /\
  forall k v m, nth_error vs k = Some v -> nth_error ms k = Some m -> nth_error scs k = Some (scene_of s vs k v m).

(** The numbers in the files have a reasonable size: angles in radians, the vehicle at most 200 m
    away from the start on each axis, the points at most 100 m away from the sensor. *)
Definition measured (s : system) (vs : list oxt) (ms : list matrix) : Prop :=
  forall k v m, nth_error vs k = Some v -> nth_error ms k = Some m ->
    angle (oxt_roll v) /\ angle (oxt_pitch v) /\ angle (oxt_yaw v) /\ Forall (sized 200) (coords (position s vs k v)) /\
    forall p, In p (pc_points m) -> Forall finite p /\ (dot3 (triple p) (triple p) <= 100 * 100)%R.

(** A scene with cells of size [r] that leaves room for rounding.  On each axis: the sensor lies
    between the points (the start of the drive counts as a point); the sensor and every point
    have a point more than a cell above, or lie in the lower quarter of a cell; every point is off
    the sensor by an eighth of a cell, and three sixteenths of a cell away from the borders of cells. *)
Definition scene_clear (r : R) (sc : scene) : Prop :=
  let pts := snd sc in
  forall i, (i < 3)%nat ->
    let o := nth i (fst sc) 0%R in
    (0 <= o \/ exists q, In q pts /\ nth i q 0 + / 16 * r <= o)%R /\
    (o <= 0 \/ exists q, In q pts /\ o + / 16 * r <= nth i q 0)%R /\
    (o + r <= 0 \/ (exists q, In q pts /\ o + 17 / 16 * r <= nth i q 0) \/ exists k, IZR k * r <= o <= (IZR k + / 4) * r)%R /\
    forall p, In p pts -> let x := nth i p 0%R in
      (x + 17 / 16 * r <= 0 \/ (exists q, In q pts /\ x + 9 / 8 * r <= nth i q 0) \/
        exists k, (IZR k + / 16) * r <= x <= (IZR k + 3 / 16) * r)%R /\
      (/ 8 * r <= Rabs (x - o))%R /\ forall k, (3 / 16 * r <= Rabs (x - (IZR k + / 2) * r))%R.
(** No scene reaches below the first (the start of the drive counts as a point). *)
Definition lowest_first (r : R) (scs : list scene) : Prop :=
  forall k sc0 sc q i, nth_error scs 0 = Some sc0 -> nth_error scs (S k) = Some sc -> In q (snd sc) -> (i < 3)%nat ->
    (/ 16 * r <= nth i q 0 \/ exists q0, In q0 (snd sc0) /\ nth i q0 0 + / 8 * r <= nth i q 0)%R.

(** What a scene says about world cell [w] when beams are followed up to [m]: as [says], with
    room for rounding. *)
Definition scene_says (m r : R) (w : cell) (sc : scene) (v : option bool) : Prop :=
  let o := fst sc in let pts := snd sc in
  let near g p := forall i, (i < 3)%nat -> (Rabs (nth i p 0 - IZR (nth i w 0%Z) * r) <= (/ 2 + g) * r)%R in
  match v with
  | Some true => exists p, In p pts /\ near (- (3 / 16))%R p /\ (dist p o + 9 / 8 * r <= m)%R
  | Some false => (exists p u, In p pts /\ (0 <= u <= 1)%R /\ near (- (3 / 16))%R (seg o p u) /\ (u * dist p o + 9 / 8 * r <= m)%R) /\
      forall q, In q pts -> ~ near (3 / 16)%R q
  | None => (forall p u, In p pts -> (0 <= u <= 1)%R -> ~ near (3 / 16)%R (seg o p u)) \/
      (m + 3 * r < dist (map (fun k => IZR k * r) w) o)%R
  end.
