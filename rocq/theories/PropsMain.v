(** C70, C71, C73: poses and the whole program. *)
From Coq Require Import ZArith List Bool Reals Lia Lra Permutation Sorted Strings.Byte.
From Flocq Require Import Core BinarySingleNaN.
From Verif Require Import Base F32 F64 Arith Geom NdArray GridMap NoiseModel Kitti Spec SpecMap SpecNoise SpecKitti MathProofs Viz SpecViz Pose SpecPose SpecMain PoseProofs StartProofs SceneProofs ExamplesKitti ExamplesPose ExamplesScene.
Open Scope Z_scope.

(** In exact arithmetic a pose rolls about x, pitches about y, yaws about z and translates. *)
Theorem C70_exact : forall roll pitch yaw t v,
  transform_col RealA (to_homogeneous RealA (let '(t1, t2, t3) := t in (Fin t1, Fin t2, Fin t3))
    (euler_quaternion RealA (xlift1 sin) (xlift1 cos) (Fin roll) (Fin pitch) (Fin yaw))) (vec3 v) =
  vec3 (plus3 (turned roll pitch yaw v) t).
Proof. exact exact_transform. Qed.
Print Assumptions C70_exact.

(** In f32 the columns of the matrix are the turned axes up to 2^-17, and orthonormal up to 2^-15. *)
Theorem C70_matrix : forall s c roll pitch yaw t1 t2 t3, trig_accurate s c -> angle roll -> angle pitch -> angle yaw ->
  exists a1 a2 a3 b1 b2 b3 c1 c2 c3,
    to_homogeneous F32A (t1, t2, t3) (euler_quaternion F32A s c roll pitch yaw) =
      [[a1; a2; a3; t1]; [b1; b2; b3; t2]; [c1; c2; c3; t3]; [f0; f0; f0; f1]] /\
    Forall finite [a1; a2; a3; b1; b2; b3; c1; c2; c3] /\
    near3 (bpow radix2 (-17)) (triple [a1; b1; c1]) (turned (real roll) (real pitch) (real yaw) (1, 0, 0)%R) /\
    near3 (bpow radix2 (-17)) (triple [a2; b2; c2]) (turned (real roll) (real pitch) (real yaw) (0, 1, 0)%R) /\
    near3 (bpow radix2 (-17)) (triple [a3; b3; c3]) (turned (real roll) (real pitch) (real yaw) (0, 0, 1)%R) /\
    near_rigid (bpow radix2 (-15)) (triple [a1; a2; a3]) (triple [b1; b2; b3]) (triple [c1; c2; c3]).
Proof. exact pose_columns. Qed.
Print Assumptions C70_matrix.

(** The distance of any two points of a cloud survives. *)
Theorem C70_distances : forall s c roll pitch yaw t D m i j v w v' w', trig_accurate s c ->
  angle roll -> angle pitch -> angle yaw -> (0 <= D <= bpow radix2 40)%R ->
  (let '(t1, t2, t3) := t in Forall (sized D) [t1; t2; t3]) -> matrix_ok m -> nrows m = 3%nat -> Forall (sized D) (mdata m) ->
  let m' := pc_transform (to_homogeneous F32A t (euler_quaternion F32A s c roll pitch yaw)) m in
  nth_error (pc_points m) i = Some v -> nth_error (pc_points m) j = Some w ->
  nth_error (pc_points m') i = Some v' -> nth_error (pc_points m') j = Some w' ->
  (Rabs (sqrt (dist2 (triple v') (triple w')) - sqrt (dist2 (triple v) (triple w))) <=
    3 * bpow radix2 (-15) * sqrt (dist2 (triple v) (triple w)) + 72 * bpow radix2 (-24) * D + bpow radix2 (-140))%R.
Proof. exact placed_distances. Qed.
Print Assumptions C70_distances.

Example C70_example : trig_accurate ex_sin ex_cos /\ (angle (f32_of_Z 4) /\ angle (f32_of_Z 5) /\ angle (f32_of_Z 6)) /\
  Forall (sized 131072) (mdata (mkMatrix 3 1 [f32_of_Z 1; f32_of_Z (-2); f32_of_Z 4])).
Proof. exact (conj ex_trig (conj ex_angles ex_points_sized)). Qed.

(** The window opens exactly for a folder with readable files, as many poses as clouds. *)
Theorem C71_opens : forall s lookup args, (exists rec, viz_main s lookup args = Ret (Some rec)) <->
  Forall is_text args /\ exists path, nth_error args 1 = Some path /\ exists vs ms, drive s (lookup path) vs ms.
Proof. exact main_opens. Qed.
Print Assumptions C71_opens.

(** It ends without a window exactly if the path is not a directory. *)
Theorem C71_ends : forall s lookup args, viz_main s lookup args = Ret None <->
  Forall is_text args /\ exists path, nth_error args 1 = Some path /\
    ~ (folder_exists (lookup path) = true /\ folder_is_dir (lookup path) = true).
Proof. exact main_ends. Qed.
Print Assumptions C71_ends.

Theorem C71_panics : forall s lookup args, viz_main s lookup args = Panic <->
  ~ Forall is_text args \/ (length args < 2)%nat \/
  exists path, nth_error args 1 = Some path /\ folder_exists (lookup path) = true /\ folder_is_dir (lookup path) = true /\
    ~ exists vs ms, drive s (lookup path) vs ms.
Proof. exact main_panics. Qed.
Print Assumptions C71_panics.

(** What a folder contains is unambiguous. *)
Theorem C71_drive_unique : forall s f vs ms vs' ms', drive s f vs ms -> drive s f vs' ms' -> vs = vs' /\ ms = ms'.
Proof. exact drive_unique. Qed.
Print Assumptions C71_drive_unique.

(** The k-th worker gets the pose and the cloud of the same place in the order of names,
    going round. *)
Theorem C71_started : forall s lookup args path rec vs ms d lm r t tr st k o c,
  viz_main s lookup args = Ret (Some rec) -> nth_error args 1 = Some path -> drive s (lookup path) vs ms -> vs <> [] ->
  reaches rec d lm r t tr st -> nth_error (started tr) k = Some (o, c) ->
  exists v m, nth_error vs (k mod length vs) = Some v /\ nth_error ms (k mod length vs) = Some m /\
    o = coords (position s vs (k mod length vs) v) /\
    c = pc_transform (to_homogeneous F32A (position s vs (k mod length vs) v) (rotation s v)) m.
Proof. exact main_started. Qed.
Print Assumptions C71_started.

(** Every point of a file is put where roll, pitch, yaw and position of the pose file of the
    same place say. *)
Theorem C71_placed : forall s lookup args path rec vs ms D k v m c,
  viz_main s lookup args = Ret (Some rec) -> nth_error args 1 = Some path -> drive s (lookup path) vs ms ->
  trig_accurate (sys_sin s) (sys_cos s) -> nth_error vs k = Some v -> nth_error ms k = Some m ->
  angle (oxt_roll v) -> angle (oxt_pitch v) -> angle (oxt_yaw v) -> (0 <= D <= bpow radix2 40)%R ->
  Forall (sized D) (coords (position s vs k v)) -> Forall (sized D) (mdata m) -> nth_error (clouds rec) k = Some c ->
  Forall2 (fun p q => length q = 3%nat /\ Forall finite q /\
    near3 (bpow radix2 (-15) * D + bpow radix2 (-147)) (triple q)
      (plus3 (turned (real (oxt_roll v)) (real (oxt_pitch v)) (real (oxt_yaw v)) (triple p)) (triple (coords (position s vs k v)))))
    (pc_points m) (pc_points c).
Proof. exact main_placed. Qed.
Print Assumptions C71_placed.

Example C71_example : drive ex_sys ex_folder ex_oxts ex_clouds /\
  (Forall is_text [name10; name02] /\ ex_lookup name02 = ex_folder /\ folder_exists (ex_lookup name10) = false) /\
  (nth_error ex_oxts 1 = Some ex_second /\ Forall (sized 131072) (coords (position ex_sys ex_oxts 1 ex_second))).
Proof. exact (conj ex_drive (conj ex_args (conj eq_refl ex_position))). Qed.

(** No thread ever panics or gets stuck on a drive of reasonable size that leaves room for rounding. *)
Theorem C73_never_panics : forall s lookup args path rec vs ms scs lm tr st,
  viz_main s lookup args = Ret (Some rec) -> nth_error args 1 = Some path -> drive s (lookup path) vs ms -> vs <> [] ->
  trig_accurate (sys_sin s) (sys_cos s) -> measured s vs ms -> scenes_of s vs ms scs -> Forall (scene_clear (real DEFAULT_RESOLUTION)) scs ->
  limit_near (max_range lm) DEFAULT_RESOLUTION -> reaches rec 3 lm DEFAULT_RESOLUTION DEFAULT_TILE_SIZE tr st ->
  existsb panicked (workers st) = false /\ render st <> RPanicked /\
  forall newer w older, workers st = newer ++ w :: older -> alive w = true -> moves rec (Worker (length older)) st.
Proof. exact drive_safe. Qed.
Print Assumptions C73_never_panics.

(** From the files to the display: a cell about which the scenes (the points of the files, turned
    and shifted in exact arithmetic) agree is on display, at its place, from some time on, or is not. *)
Theorem C73_displayed : forall s lookup args path rec vs ms scs ln o st th ev w b vals,
  viz_main s lookup args = Ret (Some rec) -> nth_error args 1 = Some path -> drive s (lookup path) vs ms -> vs <> [] ->
  trig_accurate (sys_sin s) (sys_cos s) -> measured s vs ms -> scenes_of s vs ms scs -> Forall (scene_clear (real DEFAULT_RESOLUTION)) scs ->
  lowest_first (real DEFAULT_RESOLUTION) scs -> ln_special ln -> ln_monotone ln -> (forall x, fltb f1 x = true -> fltb f0 (ln x) = true) ->
  om_default 3 ln = Ret o -> execution rec o st th ev -> fair rec st th -> length w = 3%nat ->
  Forall2 (scene_says 60 (real DEFAULT_RESOLUTION) w) scs vals -> Forall (fun v => v = None \/ v = Some b) vals -> Exists (fun v => v <> None) vals ->
  exists N, forall n, (N <= n)%nat -> exists cb, covers_cells 3 DEFAULT_RESOLUTION DEFAULT_TILE_SIZE (om_grid (grid (st n))) cb /\ in_box cb w /\
    ((exists p, In (map2 Z.sub w (cmin cb), p) (tracked (st n))) <-> b = true) /\
    (forall p, In (map2 Z.sub w (cmin cb), p) (tracked (st n)) -> near_cell DEFAULT_RESOLUTION w p).
Proof. exact drive_displayed. Qed.
Print Assumptions C73_displayed.

Example C73_example : drive ex_sys (still_lookup name02) still_vs still_ms /\ still_vs <> [] /\ trig_accurate (sys_sin ex_sys) (sys_cos ex_sys) /\
  measured ex_sys still_vs still_ms /\ scenes_of ex_sys still_vs still_ms still_scenes /\ Forall (scene_clear (real DEFAULT_RESOLUTION)) still_scenes /\
  lowest_first (real DEFAULT_RESOLUTION) still_scenes /\ (ln_special coarse_ln /\ ln_monotone coarse_ln /\ forall x, fltb f1 x = true -> fltb f0 (coarse_ln x) = true) /\
  (exists rec o st th ev, viz_main ex_sys still_lookup [name10; name02] = Ret (Some rec) /\ om_default 3 coarse_ln = Ret o /\ execution rec o st th ev /\ fair rec st th) /\
  Forall2 (scene_says 60 (real DEFAULT_RESOLUTION) [10; 10; 10]) still_scenes [Some true; Some true] /\
  Forall2 (scene_says 60 (real DEFAULT_RESOLUTION) [5; 5; 5]) still_scenes [Some false; Some false] /\
  Forall2 (scene_says 60 (real DEFAULT_RESOLUTION) [0; 20; 0]) still_scenes [None; None].
Proof.
  exact (conj still_drive (conj (fun H => nil_cons (eq_sym H)) (conj ex_trig (conj still_measured (conj still_scenes_of (conj still_clear (conj still_lowest
    (conj (conj coarse_ln_special (conj coarse_ln_monotone coarse_ln_positive)) (conj still_runs still_says))))))))).
Qed.
