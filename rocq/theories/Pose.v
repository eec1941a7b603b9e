(** Model of src/geom/pose.rs (Isometry3<f32>) with the parts of nalgebra 0.22 that the
    readers and the visualizer use of it, and of main in
    viz/src/bin/draw_occupancy_grid.rs up to the opening of the window. *)
From Coq Require Import ZArith List Bool.
From Flocq Require Import Core BinarySingleNaN.
From Verif Require Import Base F32 F64 Arith Geom Kitti GridMap RayCaster NoiseModel SpecNoise Viz.
Open Scope Z_scope.

Section Rotation.
Context (A : arith) (sine cosine : T A -> T A).

(** nalgebra::UnitQuaternion: w, then i, j, k. *)
Definition quaternion : Type := (T A * T A * T A * T A)%type.

(** nalgebra 0.22 UnitQuaternion::from_euler_angles, called in
    src/kitti/oxt_reader.rs:62-66; [sine] and [cosine] are what sin_cos returns. *)
Definition euler_quaternion (roll pitch yaw : T A) : quaternion :=
  let sr := sine (tmul A roll (thalf A)) in let cr := cosine (tmul A roll (thalf A)) in
  let sp := sine (tmul A pitch (thalf A)) in let cp := cosine (tmul A pitch (thalf A)) in
  let sy := sine (tmul A yaw (thalf A)) in let cy := cosine (tmul A yaw (thalf A)) in
  let mul3 a b c := tmul A (tmul A a b) c in
  (tadd A (mul3 cr cp cy) (mul3 sr sp sy), tsub A (mul3 sr cp cy) (mul3 cr sp sy),
   tadd A (mul3 cr sp cy) (mul3 sr cp sy), tsub A (mul3 cr cp sy) (mul3 sr sp cy)).

(** nalgebra 0.22 UnitQuaternion::to_rotation_matrix: three rows. *)
Definition rotation_matrix (q : quaternion) : list (list (T A)) :=
  let '(w, i, j, k) := q in
  let two := t_of_isize A 2 in
  let ww := tmul A w w in let ii := tmul A i i in let jj := tmul A j j in let kk := tmul A k k in
  let ij := tmul A (tmul A i j) two in let wk := tmul A (tmul A w k) two in
  let wj := tmul A (tmul A w j) two in let ik := tmul A (tmul A i k) two in
  let jk := tmul A (tmul A j k) two in let wi := tmul A (tmul A w i) two in
  [[tsub A (tsub A (tadd A ww ii) jj) kk; tsub A ij wk; tadd A wj ik];
   [tadd A wk ij; tsub A (tadd A (tsub A ww ii) jj) kk; tsub A jk wi];
   [tsub A ik wj; tadd A wi jk; tadd A (tsub A (tsub A ww ii) jj) kk]].

(** nalgebra 0.22 Isometry3::to_homogeneous, called in
    viz/src/bin/draw_occupancy_grid.rs:125: rotation, last column and last row. *)
Definition to_homogeneous (t : T A * T A * T A) (q : quaternion) : list (list (T A)) :=
  let '(x, y, z) := t in
  map2 (fun row v => row ++ [v]) (rotation_matrix q) [x; y; z] ++ [[tzero A; tzero A; tzero A; tone A]].
End Rotation.

(** ** main *)

(** A pose as the reader returns it. *)
Definition pose : Type := (translation * quaternion F32A)%type.
Definition pose_matrix (p : pose) : list (list f32) := to_homogeneous F32A (fst p) (snd p).
(** viz/src/bin/draw_occupancy_grid.rs:79 Point3::from(translation.vector) *)
Definition pose_origin (p : pose) : point := let '(x, y, z) := fst p in [x; y; z].

(** The standard library functions the readers depend on; f32::sin_cos. *)
Record system : Type := mkSystem {
  sys_parse64 : bytes -> option f64;
  sys_parse32 : bytes -> option f32;
  sys_cos64 : f64 -> f64;
  sys_sin : f32 -> f32;
  sys_cos : f32 -> f32;
  sys_order : byte_order
}.
Definition sys_env (s : system) : oxt_env (quaternion F32A) :=
  mkOxtEnv (quaternion F32A) (sys_parse64 s) (sys_parse32 s) (sys_cos64 s) (euler_quaternion F32A (sys_sin s) (sys_cos s)).

(** What a path given on the command line leads to: whether it exists and is a
    directory, and its subdirectories oxts/data and velodyne_points/data. *)
Record folder : Type := mkFolder {
  folder_exists : bool;
  folder_is_dir : bool;
  oxts_data : directory;
  velodyne_data : directory
}.

(** Result::unwrap *)
Definition unwrap {A} (r : io A) : outcome A := match r with IoOk a => Ret a | IoErr _ => Panic end.

(** viz/src/bin/draw_occupancy_grid.rs:108-129 main up to the opening of the window: the recording for the render loop, or [None] if the program ends before
    ("Invalid source folder").  env::args() panics on an argument that is not valid
    UTF-8.  Printing is left out. *)
Definition viz_main (s : system) (lookup : bytes -> folder) (args : list bytes) : outcome (option recording) :=
  if negb (forallb utf8_valid args) then Panic
  else
    match nth_error args 1 with
    | None => Panic
    | Some path =>
        let f := lookup path in
        if negb (folder_exists f) || negb (folder_is_dir f) then Ret None
        else
          do r <- snd (oxt_read_from_dir (sys_env s) (oxts_data f) false);
          do poses <- unwrap r;
          do r <- snd (cloud_read_from_dir (sys_order s) (velodyne_data f) false);
          do point_clouds <- unwrap r;
          do point_clouds <- prepare pose_matrix poses point_clouds;
          Ret (Some (mkRec (map pose_origin poses) point_clouds))
    end.
