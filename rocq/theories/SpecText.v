(** From the text of the files to the display: what the property talks about. *)
From Coq Require Import ZArith List Bool Reals Strings.Byte.
From Flocq Require Import Core BinarySingleNaN.
From Verif Require Import Base F32 F64 Arith Geom Kitti Spec SpecKitti Viz Pose SpecPose SpecMain Number SpecNumber.
Open Scope R_scope.

(** Numbers are read by the parsers of the standard library. *)
Definition std_parsers (s : system) : Prop := sys_parse64 s = parse_float 53 1024 /\ sys_parse32 s = parse_float 24 128.

(** What the text of a pose file says. *)
Record said : Type := mkSaid { lat_said : R; lon_said : R; alt_said : R; roll_said : R; pitch_said : R; yaw_said : R }.
Definition pose_text (d : directory) (n : name) (x : said) : Prop :=
  exists b t0 t1 t2 t3 t4 t5 more, contents d n = IoOk b /\ is_text b /\ fields_of b (t0 :: t1 :: t2 :: t3 :: t4 :: t5 :: more) /\
    field_value t0 (lat_said x) /\ field_value t1 (lon_said x) /\ field_value t2 (alt_said x) /\
    field_value t3 (roll_said x) /\ field_value t4 (pitch_said x) /\ field_value t5 (yaw_said x).

(** A folder with pose files saying [xs] and as many clouds [ms], in the order of names. *)
Definition drive_text (s : system) (f : folder) (xs : list said) (ms : list matrix) : Prop :=
  folder_exists f = true /\ folder_is_dir f = true /\ length xs = length ms /\
  (exists names, in_name_order (oxts_data f) names /\ Forall2 (pose_text (oxts_data f)) names xs) /\
  (exists names, in_name_order (velodyne_data f) names /\ Forall2 (cloud_file s (velodyne_data f)) names ms).

(** Metres east, north and up of [x0].  East as the code has it: the circle of latitude is that
    of the difference of the latitudes (see C52), which makes no difference for origins on the equator. *)
Definition metres (x0 x : said) : R * R * R :=
  ((lon_said x - lon_said x0) * 40075160 * cos ((lat_said x - lat_said x0) * PI / 180) / 360,
   (lat_said x - lat_said x0) * 40008000 / 360,
   alt_said x - alt_said x0).
(** The scene that a pose and a cloud mean, in exact arithmetic. *)
Definition scene_said (x0 x : said) (m : matrix) : scene :=
  (list3 (metres x0 x),
   map (fun p => list3 (plus3 (turned (roll_said x) (pitch_said x) (yaw_said x) (triple p)) (metres x0 x))) (pc_points m)).
Definition scenes_said (xs : list said) (ms : list matrix) : list scene :=
  match xs with [] => [] | x0 :: _ => map2 (scene_said x0) xs ms end.

(** Numbers of a reasonable size: places on earth, angles in radians, the vehicle at most 199 m
    away from the start on each axis, the points at most 100 m away from the sensor. *)
Definition reasonable (xs : list said) (ms : list matrix) : Prop :=
  (forall x0 x, nth_error xs 0 = Some x0 -> In x xs ->
     (Rabs (lat_said x) <= 89 /\ Rabs (lon_said x) <= 180 /\ Rabs (alt_said x) <= 10000) /\
     (Rabs (roll_said x) <= 7 /\ Rabs (pitch_said x) <= 7 /\ Rabs (yaw_said x) <= 7) /\
     let '(e, n, u) := metres x0 x in Rabs e <= 199 /\ Rabs n <= 199 /\ Rabs u <= 199) /\
  (forall m p, In m ms -> In p (pc_points m) -> Forall finite p /\ dot3 (triple p) (triple p) <= 100 * 100).

(** The same scene up to [e] on each axis. *)
Definition near_list (e : R) : list R -> list R -> Prop := Forall2 (fun a b => Rabs (a - b) <= e).
Definition near_scene (e : R) (a b : scene) : Prop := near_list e (fst a) (fst b) /\ Forall2 (near_list e) (snd a) (snd b).
