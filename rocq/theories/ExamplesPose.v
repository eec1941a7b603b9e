(** Concrete cases for the properties of poses and of the whole program. *)
From Coq Require Import ZArith List Bool Reals Lia Lra Permutation Sorted Strings.Byte.
From Flocq Require Import Core BinarySingleNaN.
From Verif Require Import Base F32 F64 Arith Geom Kitti Spec SpecKitti FloatFacts RoundError MathProofs KittiProofs OxtProofs DirProofs GpsProofs ExamplesKitti Viz SpecViz Pose SpecPose SpecMain PoseProofs StartProofs.
Open Scope R_scope.

(** Accurate functions exist: multiples of 2^-24. *)
Definition f32_near (v : R) : f32 := binary_normalize 24 128 _ _ mode_NE (ZnearestE (v * bp 24)) (-24) false.
Lemma f32_near_accurate : forall v, Rabs v <= 1 -> finite (f32_near v) /\ Rabs (real (f32_near v) - v) <= bp (-24).
Proof.
  intros v Hv. unfold f32_near. set (z := ZnearestE (v * bp 24)).
  pose proof (Znearest_half (fun z => negb (Z.even z)) (v * bp 24)) as Hz. change (Znearest _ (v * bp 24)) with z in Hz.
  pose proof (binary_normalize_correct 24 128 _ _ mode_NE z (-24) false) as C. cbv zeta in C.
  assert (E : F2R (Float radix2 z (-24)) = IZR z * bp (-24)) by reflexivity. rewrite E in C.
  assert (U : bp (-24) = / 16777216) by (rewrite u32_bp; reflexivity).
  assert (Z24 : (Z.abs z <= 2 ^ 24)%Z).
  { apply le_IZR. rewrite abs_IZR. change (IZR (2 ^ 24)) with 16777216. change (bp 24) with 16777216 in Hz.
    apply Rabs_le_inv in Hz. apply Rabs_le_inv in Hv. destruct (Z_le_gt_dec (Z.abs z) 16777216) as [K|K].
    - rewrite <- abs_IZR. now apply IZR_le.
    - exfalso. assert (16777217 <= Z.abs z)%Z as K' by lia. apply IZR_le in K'. rewrite abs_IZR in K'. unfold Rabs in K'. destruct (Rcase_abs (IZR z)); lra. }
  assert (G : generic_format radix2 (SpecFloat.fexp 24 128) (IZR z * bp (-24))).
  { change (IZR z * bp (-24)) with (F2R (Float radix2 z (-24))). 
    destruct (Z.eq_dec (Z.abs z) (2 ^ 24)) as [K|K].
    - assert (Q : F2R (Float radix2 z (-24)) = F2R (Float radix2 (Z.sgn z) 0)).
      { unfold F2R. cbn [Fnum Fexp]. rewrite U. change (bp 0) with 1. assert (z = 2 ^ 24 \/ z = - 2 ^ 24)%Z as [-> | ->] by lia; cbn; lra. }
      rewrite Q. apply (generic_format_FLT radix2 (-149) 24). exists (Float radix2 (Z.sgn z) 0); [reflexivity| |cbn; lia]. cbn [Fnum]. change (radix2 ^ 24)%Z with 16777216%Z. lia.
    - apply (generic_format_FLT radix2 (-149) 24). exists (Float radix2 z (-24)); [reflexivity| |cbn; lia]. cbn [Fnum]. change (radix2 ^ 24)%Z with (2 ^ 24)%Z. lia. }
  cbn [round_mode] in C. rewrite (round_generic radix2 (SpecFloat.fexp 24 128) ZnearestE _ G) in C.
  assert (B : Rabs (IZR z * bp (-24)) <= 1).
  { rewrite Rabs_mult, <- abs_IZR, U, (Rabs_pos_eq (/ 16777216)) by lra. apply IZR_le in Z24. change (IZR (2 ^ 24)) with 16777216 in Z24. lra. }
  rewrite Rlt_bool_true in C by (apply Rle_lt_trans with (1 := B); change 1 with (bp 0); apply bpow_lt; lia).
  destruct C as (C1 & C2 & _). split; [exact C2|]. unfold real. rewrite C1. change (bp 24) with 16777216 in Hz. rewrite U.
  replace (IZR z * / 16777216 - v) with (- ((v * 16777216 - IZR z) * / 16777216)) by field. rewrite Rabs_Ropp, Rabs_mult, (Rabs_pos_eq (/ 16777216)) by lra. lra.
Qed.
Definition ex_sin (x : f32) : f32 := f32_near (sin (real x)).
Definition ex_cos (x : f32) : f32 := f32_near (cos (real x)).
Lemma ex_trig : trig_accurate ex_sin ex_cos.
Proof. intros x _ _. split; apply f32_near_accurate; apply Rabs_le; [apply SIN_bound|apply COS_bound]. Qed.

(** Angles of 4, 5 and 6 radians. *)
Lemma small_f32 : forall D z, (Z.abs z <= 2 ^ 24)%Z -> IZR (Z.abs z) <= D -> sized D (f32_of_Z z).
Proof. intros D z H L. destruct (f32_of_Z_exact z H) as [F E]. split; [exact F|]. unfold real. now rewrite E, <- abs_IZR. Qed.
Lemma ex_angles : angle (f32_of_Z 4) /\ angle (f32_of_Z 5) /\ angle (f32_of_Z 6).
Proof. split; [|split]; apply (small_f32 8); lia || (cbn; lra). Qed.

(** ** A folder with two frames *)
Definition ex_sys : system :=
  mkSystem (fun s => option_map f64_of_Z (digit s)) (fun s => option_map f32_of_Z (digit s)) nearest_cos ex_sin ex_cos Little.
(** one point, (1, -2, 4) with intensity 9; and none *)
Definition ex_point_bytes : bytes := [x00; x00; x80; x3f;  x00; x00; x00; xc0;  x00; x00; x80; x40;  x00; x00; x10; x41].
Definition ex_velodyne : directory :=
  mkDir (IoOk [IoOk name10; IoOk name02]) (fun n => if name_leb n name02 then IoOk [] else IoOk ex_point_bytes).
Definition ex_folder : folder := mkFolder true true ex_dir ex_velodyne.
Definition ex_lookup (path : bytes) : folder :=
  if name_leb path name02 then ex_folder else mkFolder false false ex_dir ex_velodyne.
Definition ex_oxts : list oxt :=
  [mkOxt (f64_of_Z 1) (f64_of_Z 2) (f64_of_Z 3) (f32_of_Z 4) (f32_of_Z 5) (f32_of_Z 6);
   mkOxt (f64_of_Z 2) (f64_of_Z 2) (f64_of_Z 3) (f32_of_Z 4) (f32_of_Z 5) (f32_of_Z 6)].
Definition ex_clouds : list matrix := [mkMatrix 3 0 []; mkMatrix 3 1 [f32_of_Z 1; f32_of_Z (-2); f32_of_Z 4]].

Lemma ex_order : forall c, in_name_order (mkDir (IoOk [IoOk name10; IoOk name02]) c) [name02; name10].
Proof. intro c. apply order_listing. reflexivity. Qed.
Lemma ex_drive : drive ex_sys ex_folder ex_oxts ex_clouds.
Proof.
  split; [reflexivity|]. split; [reflexivity|]. split; [reflexivity|]. split; exists [name02; name10]; (split; [apply ex_order|]).
  - constructor; [|constructor; [|constructor]].
    + exists ex_line, [[x31]; [x32]; [x33]; [x34]; [x35]; [x36]; [xc3; xb1]]. split; [reflexivity|]. split; [apply ex_is_text|]. split; [apply ex_fields|].
      split; [cbn; lia|]. repeat split; reflexivity.
    + exists ex_line', [[x32]; [x32]; [x33]; [x34]; [x35]; [x36]]. split; [reflexivity|]. split; [rewrite <- utf8_text; reflexivity|]. split; [apply fields_unique; reflexivity|].
      split; [cbn; lia|]. repeat split; reflexivity.
  - constructor; [|constructor; [|constructor]].
    + exists []. repeat split; reflexivity.
    + exists ex_point_bytes. split; [reflexivity|]. split; [reflexivity|]. split; [reflexivity|]. split; [reflexivity|].
      cbn [map seq length Nat.div Nat.divmod fst ex_point_bytes]. unfold pc_points, mcol. cbn [ncols nrows mdata seq map Nat.mul skipn firstn].
      repeat (apply f_equal2; [|]); try reflexivity; apply f32_eq; vm_compute; reflexivity.
Qed.
Lemma ex_args : Forall is_text [name10; name02] /\ ex_lookup name02 = ex_folder /\ folder_exists (ex_lookup name10) = false.
Proof. split; [|split; reflexivity]. repeat (apply Forall_cons; [rewrite <- utf8_text; reflexivity|]). constructor. Qed.

(** The second frame is 111 km north of the first. *)
Definition ex_second : oxt := mkOxt (f64_of_Z 2) (f64_of_Z 2) (f64_of_Z 3) (f32_of_Z 4) (f32_of_Z 5) (f32_of_Z 6).
Lemma ex_position : Forall (sized 131072) (coords (position ex_sys ex_oxts 1 ex_second)).
Proof.
  unfold position, ex_oxts, ex_second, oxt_gps. cbn [oxt_lat oxt_lon oxt_alt].
  set (p := (f64_of_Z 2, f64_of_Z 2, f64_of_Z 3) : gps). set (o := (f64_of_Z 1, f64_of_Z 2, f64_of_Z 3) : gps).
  assert (A : forall n z, (Z.abs z <= n)%Z -> (n <= 2 ^ 53)%Z -> at_most n (f64_of_Z z)) by apply small_Z.
  pose proof (east nearest_cos p o nearest_cos_accurate (A 90 2 ltac:(lia) ltac:(lia))%Z (A 90 1 ltac:(lia) ltac:(lia))%Z (A 360 2 ltac:(lia) ltac:(lia))%Z (A 360 2 ltac:(lia) ltac:(lia))%Z) as X.
  pose proof (north nearest_cos p o (A 1000 2 ltac:(lia) ltac:(lia))%Z (A 1000 1 ltac:(lia) ltac:(lia))%Z) as Y.
  assert (B : at_most (2 ^ 80) (f64_of_Z 3)).
  { destruct (A 3 3 ltac:(lia) ltac:(lia))%Z as [F R]. split; [exact F|]. apply Rle_trans with (1 := R). apply IZR_le. lia. }
  pose proof (up nearest_cos p o B B) as Z. unfold nearly in *. cbv zeta in X. cbn [fst snd p o] in X, Y, Z.
  change (sys_cos64 ex_sys) with nearest_cos. fold p o in X, Y, Z.
  destruct (gps_to_meters nearest_cos p o) as [[x y] z]. cbn [fst snd] in X, Y, Z.
  rewrite (proj2 (f64_of_Z_exact 2 ltac:(lia))), ?(proj2 (f64_of_Z_exact 1 ltac:(lia))) in X, Y. rewrite (proj2 (f64_of_Z_exact 3 ltac:(lia))) in Z.
  destruct X as [FX X], Y as [FY Y], Z as [FZ Z].
  assert (T : bp (-149) <= 1) by (change 1 with (bp 0); apply bpow_le; lia). assert (T3 : bp (-23) = / 8388608) by reflexivity.
  replace (2 - 2) with 0 in X by lra. replace (3 - 3) with 0 in Z by lra. replace (2 - 1) with 1 in Y by lra.
  rewrite Rabs_R0 in X, Z. unfold Rdiv in X. rewrite !Rmult_0_l, Rmult_0_r in X. rewrite Rmult_0_r in Z. rewrite (Rabs_pos_eq (1 * 40008000 / 360)), T3 in Y by lra.
  rewrite Rminus_0_r in X, Z. apply Rabs_le_inv in Y.
  repeat (apply Forall_cons; [split; [assumption|]; try lra|]); [|apply Forall_nil]. apply Rabs_le. lra.
Qed.
Lemma ex_points_sized : Forall (sized 131072) (mdata (mkMatrix 3 1 [f32_of_Z 1; f32_of_Z (-2); f32_of_Z 4])).
Proof. cbn [mdata]. repeat (apply Forall_cons; [apply small_f32; [lia|cbn; lra]|]). apply Forall_nil. Qed.
