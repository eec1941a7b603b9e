(** C83: what a frame shows beside the cells. *)
From Coq Require Import ZArith List Bool Reals.
From Flocq Require Import Core BinarySingleNaN.
From Verif Require Import Base F32 Arith Geom NoiseModel Kitti Spec SpecMap SpecNoise SpecKitti Viz SpecViz Pose SpecPose SpecMain Draw SpecDraw DrawProofs Examples ExamplesMap ExamplesNoise ExamplesKitti ExamplesViz ExamplesPose ExamplesScene ExamplesDraw.
Open Scope Z_scope.

(** In exact arithmetic the marker of a pose is its three axes: x in red, y in green, z in blue. *)
Theorem C83_exact : forall roll pitch yaw t len,
  frame_marker RealA (fin3 t) (euler_quaternion RealA (xlift1 sin) (xlift1 cos) (Fin roll) (Fin pitch) (Fin yaw)) (Fin len) =
  map (fun e => mkLine RealA (fin3 t) (fin3 (plus3 t (turned roll pitch yaw (fst e)))) (fin3 (snd e)))
    [((len, 0, 0), (1, 0, 0)); ((0, len, 0), (0, 1, 0)); ((0, 0, len), (0, 0, 1))]%R.
Proof. exact exact_marker. Qed.
Print Assumptions C83_exact.

(** In f32 the lines start exactly at the position, and end at the turned axes up to rounding. *)
Theorem C83_marker : forall s c roll pitch yaw t D, trig_accurate s c -> angle roll -> angle pitch -> angle yaw -> (0 <= D <= bpow radix2 40)%R ->
  (let '(t1, t2, t3) := t in Forall (sized D) [t1; t2; t3]) ->
  marks (bpow radix2 (-15) + bpow radix2 (-24) * D) (real3 t) (real roll) (real pitch) (real yaw)
    (frame_marker F32A t (euler_quaternion F32A s c roll pitch yaw) f1).
Proof. exact marker_near. Qed.
Print Assumptions C83_marker.

(** A frame of the program: the points on display, and the marker of the pose after the last one
    that was given to a worker. *)
Theorem C83_picture : forall s lookup args path rec vs ms poses d lm r t tr st D,
  viz_main s lookup args = Ret (Some rec) -> nth_error args 1 = Some path -> drive s (lookup path) vs ms -> vs <> [] ->
  snd (oxt_read_from_dir (sys_env s) (oxts_data (lookup path)) false) = Ret (IoOk poses) ->
  trig_accurate (sys_sin s) (sys_cos s) -> (0 <= D <= bpow radix2 40)%R ->
  (forall k v, nth_error vs k = Some v -> angle (oxt_roll v) /\ angle (oxt_pitch v) /\ angle (oxt_yaw v) /\ Forall (sized D) (coords (position s vs k v))) ->
  reaches rec d lm r t tr st -> render st = RDraw ->
  exists v points lines, nth_error vs (length (started tr) mod length vs) = Some v /\ picture poses st = Ret (points, lines) /\
    Forall2 (fun e q => fst q = snd e /\ snd q = (f0, f32_lit 6 10, f32_lit 8 10)) (Viz.tracked st) points /\
    marks (bpow radix2 (-15) + bpow radix2 (-24) * D) (real3 (position s vs (length (started tr) mod length vs) v))
      (real (oxt_roll v)) (real (oxt_pitch v)) (real (oxt_yaw v)) lines.
Proof. exact picture_shows. Qed.
Print Assumptions C83_picture.

(** The marker is where the next scan is taken from. *)
Theorem C83_next : forall rec poses d lm r t tr st tr' st' o c, recorded rec -> origins rec = map pose_origin poses -> Forall pose_finite poses ->
  reaches rec d lm r t tr st -> render st = RDraw -> run rec st tr' st' -> nth_error (started tr') 0 = Some (o, c) ->
  exists points lines, picture poses st = Ret (points, lines) /\ length lines = 3%nat /\
    Forall (fun l => finite3 (line_from F32A l) /\ real3 (line_from F32A l) = triple o) lines.
Proof. exact picture_next. Qed.
Print Assumptions C83_next.

(** Not where the scan being integrated, or integrated last, was taken from. *)
Theorem C83_current_refuted : exists tr s o c points l lines, recorded two_rec /\ reaches two_rec 3 ex_lidar tenth 4 tr s /\ render s = RDraw /\
  started tr = [(o, c)] /\ picture two_poses s = Ret (points, l :: lines) /\ triple o = (0, 0, 0)%R /\ real3 (line_from F32A l) = (1, 0, 0)%R.
Proof. exact marker_ahead. Qed.
Print Assumptions C83_current_refuted.

Example C83_example : (trig_accurate ex_sin ex_cos /\ angle (f32_of_Z 4) /\ angle (f32_of_Z 5) /\ angle (f32_of_Z 6)) /\
  drive ex_sys (still_lookup name02) still_vs still_ms /\
  (forall k v, nth_error still_vs k = Some v ->
     angle (oxt_roll v) /\ angle (oxt_pitch v) /\ angle (oxt_yaw v) /\ Forall (sized 200) (coords (position ex_sys still_vs k v))) /\
  (exists rec poses tr st, viz_main ex_sys still_lookup [name10; name02] = Ret (Some rec) /\
     snd (oxt_read_from_dir (sys_env ex_sys) (oxts_data (still_lookup name02)) false) = Ret (IoOk poses) /\
     reaches rec 3 ex_lidar tenth 4 tr st /\ render st = RDraw) /\
  Forall pose_finite two_poses /\
  (exists tr s tr' s' o c, reaches two_rec 3 ex_lidar tenth 4 tr s /\ render s = RDraw /\ run two_rec s tr' s' /\
     started tr' = [(o, c)] /\ triple o = (1, 0, 0)%R).
Proof. exact (conj (conj ex_trig ex_angles) (conj still_drive (conj still_sizes (conj still_marker (conj two_poses_finite marker_then_start))))). Qed.
