(** Quaternions from Euler angles and the matrices of poses. *)
From Coq Require Import ZArith List Bool Reals Lra Lia Psatz.
From Flocq Require Import Core BinarySingleNaN Mult_error.
From Verif Require Import Base F32 FloatFacts RoundError Arith Geom Spec MathProofs ConverterProofs GeomProofs BoundsProofs CloudProofs TransformProofs Pose SpecPose.
Open Scope R_scope.

(** ** In exact arithmetic *)
Definition rows3 (m : mat3) : list (list xreal) := let '(a, b, c) := m in [vec3 a; vec3 b; vec3 c].

(** The product of the three rotations. *)
Definition euler_rows (r p y : R) : mat3 :=
  ((cos y * cos p, cos y * sin p * sin r - sin y * cos r, cos y * sin p * cos r + sin y * sin r),
   (sin y * cos p, sin y * sin p * sin r + cos y * cos r, sin y * sin p * cos r - cos y * sin r),
   (- sin p, cos p * sin r, cos p * cos r)).

Lemma turned_rows : forall r p y v, turned r p y v = apply3 (euler_rows r p y) v.
Proof.
  intros r p y [[a b] c]. unfold turned, apply3, about_x, about_y, about_z, euler_rows, dot3. cbn [fst snd].
  f_equal; [f_equal|]; ring.
Qed.

Lemma half_angle : forall t, sin t = 2 * sin (t * (1/2)) * cos (t * (1/2)) /\
  cos t = cos (t * (1/2)) * cos (t * (1/2)) - sin (t * (1/2)) * sin (t * (1/2)) /\
  cos (t * (1/2)) * cos (t * (1/2)) = 1 - sin (t * (1/2)) * sin (t * (1/2)).
Proof.
  intro t. assert (E : t = 2 * (t * (1/2))) by lra. split; [|split].
  - rewrite E at 1. apply sin_2a.
  - rewrite E at 1. apply cos_2a.
  - pose proof (sin2_cos2 (t * (1/2))) as H. unfold Rsqr in H. lra.
Qed.

(** Twice the quaternion, entry by entry. *)
Definition qw (cr sr cp sp cy sy : R) := cr * cp * cy + sr * sp * sy.
Definition qi (cr sr cp sp cy sy : R) := sr * cp * cy - cr * sp * sy.
Definition qj (cr sr cp sp cy sy : R) := cr * sp * cy + sr * cp * sy.
Definition qk (cr sr cp sp cy sy : R) := cr * cp * sy - sr * sp * cy.
Lemma quat_rows : forall cr sr cp sp cy sy, cr * cr = 1 - sr * sr -> cp * cp = 1 - sp * sp -> cy * cy = 1 - sy * sy ->
  let w := qw cr sr cp sp cy sy in let i := qi cr sr cp sp cy sy in
  let j := qj cr sr cp sp cy sy in let k := qk cr sr cp sp cy sy in
  let SR := 2 * sr * cr in let CR := cr * cr - sr * sr in
  let SP := 2 * sp * cp in let CP := cp * cp - sp * sp in
  let SY := 2 * sy * cy in let CY := cy * cy - sy * sy in
  (w * w + i * i - j * j - k * k = CY * CP /\ i * j * 2 - w * k * 2 = CY * SP * SR - SY * CR /\ w * j * 2 + i * k * 2 = CY * SP * CR + SY * SR) /\
  (w * k * 2 + i * j * 2 = SY * CP /\ w * w - i * i + j * j - k * k = SY * SP * SR + CY * CR /\ j * k * 2 - w * i * 2 = SY * SP * CR - CY * SR) /\
  (i * k * 2 - w * j * 2 = - SP /\ w * i * 2 + j * k * 2 = CP * SR /\ w * w - i * i - j * j + k * k = CP * CR) /\
  w * w + i * i + j * j + k * k = 1.
Proof.
  intros cr sr cp sp cy sy H1 H2 H3. cbv zeta. unfold qw, qi, qj, qk.
  repeat split; ring [H1 H2 H3].
Qed.

Lemma exact_rows : forall r p y,
  rotation_matrix RealA (euler_quaternion RealA (xlift1 sin) (xlift1 cos) (Fin r) (Fin p) (Fin y)) = rows3 (euler_rows r p y).
Proof.
  intros r p y. destruct (half_angle r) as (A1 & A2 & A3). destruct (half_angle p) as (B1 & B2 & B3). destruct (half_angle y) as (C1 & C2 & C3).
  unfold euler_rows. rewrite A1, A2, B1, B2, C1, C2.
  unfold rotation_matrix, euler_quaternion, rows3, vec3. cbn [RealA tmul tadd tsub thalf t_of_isize xlift1 xlift2].
  set (cr := cos (r * (1/2))) in *. set (sr := sin (r * (1/2))) in *. set (cp := cos (p * (1/2))) in *. set (sp := sin (p * (1/2))) in *.
  set (cy := cos (y * (1/2))) in *. set (sy := sin (y * (1/2))) in *.
  destruct (quat_rows cr sr cp sp cy sy A3 B3 C3) as ((E1 & E2 & E3) & (E4 & E5 & E6) & (E7 & E8 & E9) & _). unfold qw, qi, qj, qk in *.
  rewrite E1, E2, E3, E4, E5, E6, E7, E8, E9. reflexivity.
Qed.

Lemma euler_rigid : forall r p y, let '(a, b, c) := euler_rows r p y in rigid a b c.
Proof.
  intros r p y. unfold euler_rows, rigid, dot3.
  pose proof (sin2_cos2 r) as A. pose proof (sin2_cos2 p) as B. pose proof (sin2_cos2 y) as C. unfold Rsqr in *.
  assert (A' : cos r * cos r = 1 - sin r * sin r) by lra. assert (B' : cos p * cos p = 1 - sin p * sin p) by lra.
  assert (C' : cos y * cos y = 1 - sin y * sin y) by lra.
  repeat split; ring [A' B' C'].
Qed.

(** Three axes turned into three orthonormal vectors, right-handed. *)
Lemma turned_dot : forall r p y u v, dot3 (turned r p y u) (turned r p y v) = dot3 u v.
Proof.
  intros r p y [[a b] c] [[a' b'] c']. rewrite !turned_rows. unfold euler_rows, apply3, dot3.
  pose proof (sin2_cos2 r) as A. pose proof (sin2_cos2 p) as B. pose proof (sin2_cos2 y) as C. unfold Rsqr in *.
  assert (A' : cos r * cos r = 1 - sin r * sin r) by lra. assert (B' : cos p * cos p = 1 - sin p * sin p) by lra.
  assert (C' : cos y * cos y = 1 - sin y * sin y) by lra.
  ring [A' B' C'].
Qed.

(** What the exact model does to a point. *)
Lemma exact_transform : forall r p y t v,
  transform_col RealA (to_homogeneous RealA (let '(t1, t2, t3) := t in (Fin t1, Fin t2, Fin t3))
    (euler_quaternion RealA (xlift1 sin) (xlift1 cos) (Fin r) (Fin p) (Fin y))) (vec3 v) = vec3 (plus3 (turned r p y v) t).
Proof.
  intros r p y [[t1 t2] t3] [[v1 v2] v3]. unfold to_homogeneous. rewrite exact_rows, turned_rows.
  destruct (euler_rows r p y) as [[[[a1 a2] a3] [[b1 b2] b3]] [[c1 c2] c3]].
  unfold rows3, vec3, transform_col, gemv_row, apply3, plus3, dot3.
  cbn [map2 app map removelast fold_left RealA tmul tadd tone tzero xlift2].
  f_equal; [|f_equal; [|f_equal]]; apply f_equal; ring.
Qed.

(** ** With rounding *)

(** [x] approximates [r] up to [k] units of 2^-24. *)
Definition approx (k : R) (x : f32) (r : R) : Prop := is_finite x = true /\ Rabs (B2R x - r) <= k * u32.

Lemma approx_weaken : forall k k' x r, k <= k' -> approx k x r -> approx k' x r.
Proof. intros k k' x r L [F H]. split; [assumption|]. assert (0 < u32) by (unfold u32; lra). nra. Qed.

Lemma small_fin : forall e, Rabs e <= 16 -> Rabs (rnd e) < bp 128.
Proof. intros e H. apply rnd_abs_lt_128. apply Rle_trans with (bp 4); [exact H|apply bpow_le; lia]. Qed.

Lemma approx_mul : forall k1 k2 x y a b, 0 <= k1 <= 1000 -> 0 <= k2 <= 1000 -> Rabs a <= 1 -> Rabs b <= 1 ->
  approx k1 x a -> approx k2 y b -> approx (k1 + k2 + 1.1) (fmul x y) (a * b).
Proof.
  intros k1 k2 x y a b K1 K2 Ha Hb [Fx Hx] [Fy Hy].
  assert (U : u32 = / 16777216) by reflexivity.
  set (X := B2R x) in *. set (Y := B2R y) in *.
  assert (P : Rabs (X * Y - a * b) <= (k1 + k2 + 0.06) * u32).
  { replace (X * Y - a * b) with ((X - a) * b + (Y - b) * a + (X - a) * (Y - b)) by ring.
    assert (Rabs ((X - a) * b) <= k1 * u32). { rewrite Rabs_mult. pose proof (Rabs_pos (X - a)). pose proof (Rabs_pos b). nra. }
    assert (Rabs ((Y - b) * a) <= k2 * u32). { rewrite Rabs_mult. pose proof (Rabs_pos (Y - b)). pose proof (Rabs_pos a). nra. }
    assert (Rabs ((X - a) * (Y - b)) <= 0.06 * u32).
    { rewrite Rabs_mult. apply Rle_trans with ((k1 * u32) * (k2 * u32)). apply Rmult_le_compat; auto using Rabs_pos.
      assert (k1 * k2 <= 1000 * 1000) by nra. nra. }
    pose proof (Rabs_triang ((X - a) * b + (Y - b) * a) ((X - a) * (Y - b))). pose proof (Rabs_triang ((X - a) * b) ((Y - b) * a)). lra. }
  assert (S : Rabs (X * Y) <= 1 + 2001 * u32).
  { replace (X * Y) with ((X * Y - a * b) + a * b) by ring. eapply Rle_trans. apply Rabs_triang.
    assert (Rabs (a * b) <= 1). { rewrite Rabs_mult. pose proof (Rabs_pos a). pose proof (Rabs_pos b). nra. } nra. }
  destruct (fmul_fin x y Fx Fy) as [F E]. { apply small_fin. fold X Y. lra. }
  split; [assumption|]. rewrite E. fold X Y. pose proof (rnd_err (X * Y)) as R. pose proof bp_m150_u as B.
  replace (rnd (X * Y) - a * b) with ((rnd (X * Y) - X * Y) + (X * Y - a * b)) by ring. eapply Rle_trans. apply Rabs_triang. nra.
Qed.

Lemma approx_add : forall k1 k2 x y a b, 0 <= k1 <= 1000 -> 0 <= k2 <= 1000 -> Rabs (a + b) <= 1 ->
  approx k1 x a -> approx k2 y b -> approx (k1 + k2 + 1.1) (fadd x y) (a + b).
Proof.
  intros k1 k2 x y a b K1 K2 Ha [Fx Hx] [Fy Hy].
  assert (U : u32 = / 16777216) by reflexivity.
  set (X := B2R x) in *. set (Y := B2R y) in *.
  assert (P : Rabs (X + Y - (a + b)) <= (k1 + k2) * u32).
  { replace (X + Y - (a + b)) with ((X - a) + (Y - b)) by ring. eapply Rle_trans. apply Rabs_triang. lra. }
  assert (S : Rabs (X + Y) <= 1 + 2000 * u32).
  { replace (X + Y) with ((X + Y - (a + b)) + (a + b)) by ring. eapply Rle_trans. apply Rabs_triang. nra. }
  destruct (fadd_fin x y Fx Fy) as [F E]. { apply small_fin. fold X Y. lra. }
  split; [assumption|]. rewrite E. fold X Y. pose proof (rnd_err (X + Y)) as R. pose proof bp_m150_u as B.
  replace (rnd (X + Y) - (a + b)) with ((rnd (X + Y) - (X + Y)) + (X + Y - (a + b))) by ring. eapply Rle_trans. apply Rabs_triang. nra.
Qed.
Lemma approx_sub : forall k1 k2 x y a b, 0 <= k1 <= 1000 -> 0 <= k2 <= 1000 -> Rabs (a - b) <= 1 ->
  approx k1 x a -> approx k2 y b -> approx (k1 + k2 + 1.1) (fsub x y) (a - b).
Proof.
  intros k1 k2 x y a b K1 K2 Ha [Fx Hx] [Fy Hy].
  assert (U : u32 = / 16777216) by reflexivity.
  set (X := B2R x) in *. set (Y := B2R y) in *.
  assert (P : Rabs (X - Y - (a - b)) <= (k1 + k2) * u32).
  { replace (X - Y - (a - b)) with ((X - a) + - (Y - b)) by ring. eapply Rle_trans. apply Rabs_triang. rewrite Rabs_Ropp. lra. }
  assert (S : Rabs (X - Y) <= 1 + 2000 * u32).
  { replace (X - Y) with ((X - Y - (a - b)) + (a - b)) by ring. eapply Rle_trans. apply Rabs_triang. nra. }
  destruct (fsub_fin x y Fx Fy) as [F E]. { apply small_fin. fold X Y. lra. }
  split; [assumption|]. rewrite E. fold X Y. pose proof (rnd_err (X - Y)) as R. pose proof bp_m150_u as B.
  replace (rnd (X - Y) - (a - b)) with ((rnd (X - Y) - (X - Y)) + (X - Y - (a - b))) by ring. eapply Rle_trans. apply Rabs_triang. nra.
Qed.

(** Halving and doubling are exact (halving up to the smallest numbers). *)
Lemma half_exact : forall x : f32, is_finite x = true -> Rabs (B2R x) <= 8 ->
  is_finite (fmul x fhalf) = true /\ Rabs (B2R (fmul x fhalf)) <= 4 /\ Rabs (B2R (fmul x fhalf) - B2R x * (1/2)) <= bp (-150).
Proof.
  intros x F H.
  assert (Fh : is_finite fhalf = true) by (vm_compute; reflexivity). assert (Eh : B2R fhalf = 1/2) by (rewrite fhalf_real; lra).
  assert (S : Rabs (B2R x * (1/2)) <= bp 2). { rewrite Rabs_mult, (Rabs_pos_eq (1/2)) by lra. change (bp 2) with 4. lra. }
  destruct (fmul_fin x fhalf F Fh) as [G E]. { rewrite Eh. apply small_fin. change (bp 2) with 4 in S. lra. }
  rewrite Eh in E. split; [assumption|]. rewrite E. split. { change 4 with (bp 2). apply rnd_abs_le_bp; [lia|assumption]. }
  destruct (Rle_or_lt (bp (-125)) (Rabs (B2R x))) as [L|L].
  - rewrite round_generic; [|auto with typeclass_instances|].
    + rewrite Rminus_eq_0, Rabs_R0. apply bpow_ge_0.
    + replace (1/2) with (bp (-1)) by (change (bp (-1)) with (/2); lra). apply (mult_bpow_exact_FLT radix2 (-149) 24); [apply generic_format_B2R|].
      assert (-125 < mag radix2 (B2R x))%Z. { apply mag_gt_bpow. assumption. } lia.
  - assert (X : B2R x * (1/2) = B2R x * (1/2)) by reflexivity. clear X.
    pose proof (error_le_half_ulp radix2 fexp32 (fun z => negb (Z.even z)) (B2R x * (1/2))) as Q.
    eapply Rle_trans. exact Q. 
    destruct (Req_dec (B2R x * (1/2)) 0) as [Z0|Z0].
    { rewrite Z0. change (ulp radix2 fexp32 0) with (ulp radix2 (FLT_exp (-149) 24) 0). rewrite ulp_FLT_0 by reflexivity. change (-150)%Z with (-1 + -149)%Z. rewrite bpow_plus. change (bp (-1)) with (/2). lra. }
    rewrite ulp_neq_0 by assumption.
    assert (Hc : cexp radix2 fexp32 (B2R x * (1/2)) = (-149)%Z).
    { unfold cexp. change (fexp32 (mag radix2 (B2R x * (1/2)))) with (FLT_exp (-149) 24 (mag radix2 (B2R x * (1/2)))).
      unfold FLT_exp. apply Z.max_r.
      assert (mag radix2 (B2R x * (1/2)) <= -125)%Z. { apply mag_le_bpow; [assumption|]. rewrite Rabs_mult, (Rabs_pos_eq (1/2)) by lra. pose proof (Rabs_pos (B2R x)). lra. } lia. }
    rewrite Hc. change (-150)%Z with (-1 + -149)%Z. rewrite bpow_plus. change (bp (-1)) with (/2). lra.
Qed.

Lemma sin_abs : forall t, Rabs (sin t) <= Rabs t.
Proof.
  intro t. destruct (Rtotal_order t 0) as [L|[->|L]].
  - assert (0 < - t) as P by lra. pose proof (sin_lt_x _ P) as Q. rewrite sin_neg in Q. rewrite (Rabs_left t) by assumption.
    destruct (Rle_or_lt (sin t) 0) as [S|S]; [rewrite Rabs_left1 by assumption; lra|rewrite Rabs_pos_eq by lra].
    destruct (Rle_or_lt PI (- t)) as [G|G]. { pose proof (SIN_bound t). pose proof PI2_1. lra. }
    assert (0 <= sin (- t)) by (apply sin_ge_0; lra). rewrite sin_neg in *. lra.
  - rewrite sin_0. lra.
  - pose proof (sin_lt_x _ L) as Q. rewrite (Rabs_pos_eq t) by lra.
    destruct (Rle_or_lt 0 (sin t)) as [S|S]; [rewrite Rabs_pos_eq by assumption; lra|rewrite Rabs_left by lra].
    destruct (Rle_or_lt PI t) as [G|G]. { pose proof (SIN_bound t). pose proof PI2_1. lra. }
    assert (0 <= sin t) by (apply sin_ge_0; lra). lra.
Qed.
Lemma sin_lip : forall a b, Rabs (sin a - sin b) <= Rabs (a - b).
Proof.
  intros a b. rewrite form4. rewrite !Rabs_mult, (Rabs_pos_eq 2) by lra.
  assert (Rabs (cos ((a + b) / 2)) <= 1) by (apply Rabs_le, COS_bound). pose proof (sin_abs ((a - b) / 2)) as S.
  replace (Rabs (a - b)) with (2 * Rabs ((a - b) / 2)). 2:{ unfold Rdiv. rewrite Rabs_mult, (Rabs_pos_eq (/2)) by lra. lra. }
  pose proof (Rabs_pos (cos ((a + b) / 2))). pose proof (Rabs_pos (sin ((a - b) / 2))). nra.
Qed.
Lemma cos_lip : forall a b, Rabs (cos a - cos b) <= Rabs (a - b).
Proof.
  intros a b. rewrite form2. rewrite !Rabs_mult, (Rabs_left (-2)) by lra.
  assert (Rabs (sin ((a + b) / 2)) <= 1) by (apply Rabs_le, SIN_bound). pose proof (sin_abs ((a - b) / 2)) as S.
  replace (Rabs (a - b)) with (2 * Rabs ((a - b) / 2)). 2:{ unfold Rdiv. rewrite Rabs_mult, (Rabs_pos_eq (/2)) by lra. lra. }
  pose proof (Rabs_pos (sin ((a + b) / 2))). pose proof (Rabs_pos (sin ((a - b) / 2))). nra.
Qed.

Lemma trig_half : forall s c x, trig_accurate s c -> angle x ->
  approx 1.1 (s (fmul x fhalf)) (sin (B2R x * (1/2))) /\ approx 1.1 (c (fmul x fhalf)) (cos (B2R x * (1/2))).
Proof.
  intros s c x H [F A]. destruct (half_exact x F A) as (G & B & E). destruct (H _ G B) as [[Fs Hs] [Fc Hc]]. unfold real in *.
  pose proof bp_m150_u as T. assert (U : bp (-24) = u32) by apply u32_bp. rewrite U in *.
  split; split; try assumption.
  - pose proof (sin_lip (B2R (fmul x fhalf)) (B2R x * (1/2))) as L.
    pose proof (Rabs_triang (B2R (s (fmul x fhalf)) - sin (B2R (fmul x fhalf))) (sin (B2R (fmul x fhalf)) - sin (B2R x * (1/2)))) as Q.
    replace (B2R (s (fmul x fhalf)) - sin (B2R (fmul x fhalf)) + (sin (B2R (fmul x fhalf)) - sin (B2R x * (1/2)))) with (B2R (s (fmul x fhalf)) - sin (B2R x * (1/2))) in Q by ring.
    assert (0 < u32) by (unfold u32; lra). lra.
  - pose proof (cos_lip (B2R (fmul x fhalf)) (B2R x * (1/2))) as L.
    pose proof (Rabs_triang (B2R (c (fmul x fhalf)) - cos (B2R (fmul x fhalf))) (cos (B2R (fmul x fhalf)) - cos (B2R x * (1/2)))) as Q.
    replace (B2R (c (fmul x fhalf)) - cos (B2R (fmul x fhalf)) + (cos (B2R (fmul x fhalf)) - cos (B2R x * (1/2)))) with (B2R (c (fmul x fhalf)) - cos (B2R x * (1/2))) in Q by ring.
    assert (0 < u32) by (unfold u32; lra). lra.
Qed.

Lemma approx_double : forall k x a, 0 <= k <= 400 -> Rabs (a * 2) <= 1 -> approx k x a -> approx (2 * k + 1.1) (fmul x (f32_of_Z 2)) (a * 2).
Proof.
  intros k x a K Ha [Fx Hx]. assert (U : u32 = / 16777216) by reflexivity.
  destruct (f32_of_Z_exact 2) as [F2 E2]; [lia|].
  set (X := B2R x) in *.
  assert (P : Rabs (X * 2 - a * 2) <= 2 * k * u32).
  { replace (X * 2 - a * 2) with ((X - a) * 2) by ring. rewrite Rabs_mult, (Rabs_pos_eq 2) by lra. lra. }
  assert (S : Rabs (X * 2) <= 1 + 2000 * u32).
  { replace (X * 2) with ((X * 2 - a * 2) + a * 2) by ring. eapply Rle_trans. apply Rabs_triang. nra. }
  destruct (fmul_fin x (f32_of_Z 2) Fx F2) as [F E]. { rewrite E2. apply small_fin. fold X. lra. }
  split; [assumption|]. rewrite E, E2. fold X. pose proof (rnd_err (X * 2)) as R. pose proof bp_m150_u as B.
  replace (rnd (X * 2) - a * 2) with ((rnd (X * 2) - X * 2) + (X * 2 - a * 2)) by ring. eapply Rle_trans. apply Rabs_triang. nra.
Qed.

Lemma abs_le : forall x, x <= 1 -> -1 <= x -> Rabs x <= 1.
Proof. intros. apply Rabs_le. lra. Qed.
Lemma approx_mul3 : forall x y z a b c, Rabs a <= 1 -> Rabs b <= 1 -> Rabs c <= 1 ->
  approx 1.1 x a -> approx 1.1 y b -> approx 1.1 z c -> approx 5.5 (fmul (fmul x y) z) (a * b * c) /\ Rabs (a * b * c) <= 1.
Proof.
  intros x y z a b c A B C Hx Hy Hz.
  assert (P : Rabs (a * b) <= 1). { rewrite Rabs_mult. pose proof (Rabs_pos a). pose proof (Rabs_pos b). nra. }
  split.
  - eapply approx_weaken; [|apply (approx_mul 3.3 1.1)]; try eassumption; try lra.
    eapply approx_weaken; [|apply (approx_mul 1.1 1.1)]; try eassumption; lra.
  - rewrite Rabs_mult. pose proof (Rabs_pos (a * b)). pose proof (Rabs_pos c). nra.
Qed.

Lemma matrix_near : forall fw fi fj fk w i j k, w * w + i * i + j * j + k * k = 1 ->
  approx 12.1 fw w -> approx 12.1 fi i -> approx 12.1 fj j -> approx 12.1 fk k ->
  exists a1 a2 a3 b1 b2 b3 c1 c2 c3,
    rotation_matrix F32A (fw, fi, fj, fk) = [[a1; a2; a3]; [b1; b2; b3]; [c1; c2; c3]] /\
    (approx 104.5 a1 (w * w + i * i - j * j - k * k) /\ approx 104.5 a2 (i * j * 2 - w * k * 2) /\ approx 104.5 a3 (w * j * 2 + i * k * 2)) /\
    (approx 104.5 b1 (w * k * 2 + i * j * 2) /\ approx 104.5 b2 (w * w - i * i + j * j - k * k) /\ approx 104.5 b3 (j * k * 2 - w * i * 2)) /\
    (approx 104.5 c1 (i * k * 2 - w * j * 2) /\ approx 104.5 c2 (w * i * 2 + j * k * 2) /\ approx 104.5 c3 (w * w - i * i - j * j + k * k)).
Proof.
  intros fw fi fj fk w i j k N Hw Hi Hj Hk. unfold rotation_matrix. do 9 eexists. split; [reflexivity|].
  cbn [F32A tmul tadd tsub thalf t_of_isize].
  pose proof (Rle_0_sqr w) as Pw. pose proof (Rle_0_sqr i) as Pi. pose proof (Rle_0_sqr j) as Pj. pose proof (Rle_0_sqr k) as Pk. unfold Rsqr in *.
  assert (Bw : Rabs w <= 1) by (apply Rabs_le; nra). assert (Bi : Rabs i <= 1) by (apply Rabs_le; nra).
  assert (Bj : Rabs j <= 1) by (apply Rabs_le; nra). assert (Bk : Rabs k <= 1) by (apply Rabs_le; nra).
  assert (SQ : forall f x, Rabs x <= 1 -> approx 12.1 f x -> approx 25.3 (fmul f f) (x * x)).
  { intros f x B F. eapply approx_weaken; [|apply (approx_mul 12.1 12.1)]; try eassumption; lra. }
  assert (DB : forall f g x z, Rabs x <= 1 -> Rabs z <= 1 -> x * x + z * z <= 1 -> approx 12.1 f x -> approx 12.1 g z -> approx 51.7 (fmul (fmul f g) (f32_of_Z 2)) (x * z * 2)).
  { intros f g x z B B' S F G. eapply approx_weaken; [|apply (approx_double 25.3)]; [lra|lra| |].
    - apply abs_le; pose proof (Rle_0_sqr (x - z)); pose proof (Rle_0_sqr (x + z)); unfold Rsqr in *; nra.
    - eapply approx_weaken; [|apply (approx_mul 12.1 12.1)]; try eassumption; lra. }
  pose proof (SQ _ _ Bw Hw) as Qw. pose proof (SQ _ _ Bi Hi) as Qi. pose proof (SQ _ _ Bj Hj) as Qj. pose proof (SQ _ _ Bk Hk) as Qk.
  pose proof (DB _ _ _ _ Bi Bj ltac:(lra) Hi Hj) as Qij. pose proof (DB _ _ _ _ Bw Bk ltac:(lra) Hw Hk) as Qwk.
  pose proof (DB _ _ _ _ Bw Bj ltac:(lra) Hw Hj) as Qwj. pose proof (DB _ _ _ _ Bi Bk ltac:(lra) Hi Hk) as Qik.
  pose proof (DB _ _ _ _ Bj Bk ltac:(lra) Hj Hk) as Qjk. pose proof (DB _ _ _ _ Bw Bi ltac:(lra) Hw Hi) as Qwi. clear SQ DB.
  assert (OFF : forall a b c d, a * a + b * b + c * c + d * d = 1 -> Rabs (a * b * 2 + c * d * 2) <= 1 /\ Rabs (a * b * 2 - c * d * 2) <= 1).
  { intros a b c d M. split; apply abs_le; pose proof (Rle_0_sqr (a - b)); pose proof (Rle_0_sqr (a + b)); pose proof (Rle_0_sqr (c - d)); pose proof (Rle_0_sqr (c + d)); unfold Rsqr in *; nra. }
  assert (ADD : forall f g x z, Rabs (x + z) <= 1 -> approx 51.7 f x -> approx 51.7 g z -> approx 104.5 (fadd f g) (x + z)).
  { intros f g x z B F G. eapply approx_weaken; [|apply (approx_add 51.7 51.7)]; try eassumption; lra. }
  assert (SUB : forall f g x z, Rabs (x - z) <= 1 -> approx 51.7 f x -> approx 51.7 g z -> approx 104.5 (fsub f g) (x - z)).
  { intros f g x z B F G. eapply approx_weaken; [|apply (approx_sub 51.7 51.7)]; try eassumption; lra. }
  assert (D1 : approx 51.7 (fadd (fmul fw fw) (fmul fi fi)) (w * w + i * i)).
  { eapply approx_weaken; [|apply (approx_add 25.3 25.3)]; [lra|lra|lra|apply abs_le; lra|assumption|assumption]. }
  assert (D2 : approx 51.7 (fsub (fmul fw fw) (fmul fi fi)) (w * w - i * i)).
  { eapply approx_weaken; [|apply (approx_sub 25.3 25.3)]; [lra|lra|lra|apply abs_le; lra|assumption|assumption]. }
  split; [split; [|split]|split; [split; [|split]|split; [|split]]].
  - eapply approx_weaken; [|apply (approx_sub 78.1 25.3)]; [lra|lra|lra|apply abs_le; lra| |assumption].
    eapply approx_weaken; [|apply (approx_sub 51.7 25.3)]; [lra|lra|lra|apply abs_le; lra| |assumption]. exact D1.
  - apply SUB; try assumption. apply OFF. lra.
  - apply ADD; try assumption. apply OFF. lra.
  - apply ADD; try assumption. apply OFF. lra.
  - eapply approx_weaken; [|apply (approx_sub 78.1 25.3)]; [lra|lra|lra|apply abs_le; lra| |assumption].
    eapply approx_weaken; [|apply (approx_add 51.7 25.3)]; [lra|lra|lra|apply abs_le; lra| |assumption]. exact D2.
  - apply SUB; try assumption. apply OFF. lra.
  - apply SUB; try assumption. apply OFF. lra.
  - apply ADD; try assumption. apply OFF. lra.
  - eapply approx_weaken; [|apply (approx_add 78.1 25.3)]; [lra|lra|lra|apply abs_le; lra| |assumption].
    eapply approx_weaken; [|apply (approx_sub 51.7 25.3)]; [lra|lra|lra|apply abs_le; lra| |assumption]. exact D2.
Qed.

(** The quaternion in f32 is close to a unit quaternion, whose matrix turns as it should. *)
Lemma quat_near : forall s c r p y, trig_accurate s c -> angle r -> angle p -> angle y ->
  exists fw fi fj fk w i j k, euler_quaternion F32A s c r p y = (fw, fi, fj, fk) /\
    (approx 12.1 fw w /\ approx 12.1 fi i /\ approx 12.1 fj j /\ approx 12.1 fk k) /\ w * w + i * i + j * j + k * k = 1 /\
    euler_rows (B2R r) (B2R p) (B2R y) =
      ((w * w + i * i - j * j - k * k, i * j * 2 - w * k * 2, w * j * 2 + i * k * 2),
       (w * k * 2 + i * j * 2, w * w - i * i + j * j - k * k, j * k * 2 - w * i * 2),
       (i * k * 2 - w * j * 2, w * i * 2 + j * k * 2, w * w - i * i - j * j + k * k)).
Proof.
  intros s c r p y H Hr Hp Hy.
  destruct (trig_half s c r H Hr) as [SR CR]. destruct (trig_half s c p H Hp) as [SP CP]. destruct (trig_half s c y H Hy) as [SY CY].
  destruct (half_angle (B2R r)) as (A1 & A2 & A3). destruct (half_angle (B2R p)) as (B1 & B2 & B3). destruct (half_angle (B2R y)) as (C1 & C2 & C3).
  unfold euler_rows. rewrite A1, A2, B1, B2, C1, C2. clear A1 A2 B1 B2 C1 C2.
  assert (Bs : forall t, Rabs (sin t) <= 1) by (intro; apply Rabs_le, SIN_bound).
  assert (Bc : forall t, Rabs (cos t) <= 1) by (intro; apply Rabs_le, COS_bound).
  pose proof (Bs (B2R r * (1/2))) as Bsr. pose proof (Bc (B2R r * (1/2))) as Bcr.
  pose proof (Bs (B2R p * (1/2))) as Bsp. pose proof (Bc (B2R p * (1/2))) as Bcp.
  pose proof (Bs (B2R y * (1/2))) as Bsy. pose proof (Bc (B2R y * (1/2))) as Bcy. clear Bs Bc.
  unfold euler_quaternion. cbn [F32A tmul tadd tsub thalf t_of_isize].
  set (fsr := s (fmul r fhalf)) in *. set (fcr := c (fmul r fhalf)) in *. set (fsp := s (fmul p fhalf)) in *. set (fcp := c (fmul p fhalf)) in *.
  set (fsy := s (fmul y fhalf)) in *. set (fcy := c (fmul y fhalf)) in *. clearbody fsr fcr fsp fcp fsy fcy.
  set (cr := cos (B2R r * (1/2))) in *. set (sr := sin (B2R r * (1/2))) in *. set (cp := cos (B2R p * (1/2))) in *. set (sp := sin (B2R p * (1/2))) in *.
  set (cy := cos (B2R y * (1/2))) in *. set (sy := sin (B2R y * (1/2))) in *. clearbody cr sr cp sp cy sy.
  destruct (quat_rows cr sr cp sp cy sy A3 B3 C3) as ((E1 & E2 & E3) & (E4 & E5 & E6) & (E7 & E8 & E9) & N).
  do 4 eexists. exists (qw cr sr cp sp cy sy), (qi cr sr cp sp cy sy), (qj cr sr cp sp cy sy), (qk cr sr cp sp cy sy).
  split; [reflexivity|]. rewrite E1, E2, E3, E4, E5, E6, E7, E8, E9. clear E1 E2 E3 E4 E5 E6 E7 E8 E9 A3 B3 C3.
  split; [|split; [exact N|reflexivity]].
  split; [|split; [|split]];
  (eapply approx_weaken; [|first [apply (approx_add 5.5 5.5)|apply (approx_sub 5.5 5.5)]]; [lra|lra|lra| |apply approx_mul3; assumption|apply approx_mul3; assumption]);
  unfold qw, qi, qj, qk in N; apply abs_le;
  match type of N with ?a * ?a + ?b * ?b + ?c * ?c + ?d * ?d = 1 =>
    pose proof (Rle_0_sqr a) as N1; pose proof (Rle_0_sqr b) as N2; pose proof (Rle_0_sqr c) as N3; pose proof (Rle_0_sqr d) as N4; unfold Rsqr in *;
    set (a0 := a) in *; set (b0 := b) in *; set (c0 := c) in *; set (d0 := d) in *; clearbody a0 b0 c0 d0; nra
  end.
Qed.
Lemma euler_near : forall s c r p y, trig_accurate s c -> angle r -> angle p -> angle y ->
  exists a1 a2 a3 b1 b2 b3 c1 c2 c3,
    rotation_matrix F32A (euler_quaternion F32A s c r p y) = [[a1; a2; a3]; [b1; b2; b3]; [c1; c2; c3]] /\
    let '((A1, A2, A3), (B1, B2, B3), (C1, C2, C3)) := euler_rows (B2R r) (B2R p) (B2R y) in
    (approx 104.5 a1 A1 /\ approx 104.5 a2 A2 /\ approx 104.5 a3 A3) /\
    (approx 104.5 b1 B1 /\ approx 104.5 b2 B2 /\ approx 104.5 b3 B3) /\
    (approx 104.5 c1 C1 /\ approx 104.5 c2 C2 /\ approx 104.5 c3 C3).
Proof.
  intros s c r p y H Hr Hp Hy. destruct (quat_near s c r p y H Hr Hp Hy) as (fw & fi & fj & fk & w & i & j & k & -> & (Aw & Ai & Aj & Ak) & N & ->).
  exact (matrix_near fw fi fj fk w i j k N Aw Ai Aj Ak).
Qed.

(** ** Consequences *)
Lemma unit_sum : forall a b c, a * a + b * b + c * c = 1 -> Rabs a + Rabs b + Rabs c <= 1.7321.
Proof.
  intros a b c H. pose proof (Rabs_pos a). pose proof (Rabs_pos b). pose proof (Rabs_pos c).
  assert (Q : forall x, x * x = Rabs x * Rabs x). { intro x. rewrite <- Rabs_mult. symmetry. apply Rabs_pos_eq. apply Rle_0_sqr. }
  rewrite (Q a), (Q b), (Q c) in H. set (x := Rabs a) in *. set (y := Rabs b) in *. set (z := Rabs c) in *.
  assert ((x + y + z) * (x + y + z) <= 3). { pose proof (Rle_0_sqr (x - y)). pose proof (Rle_0_sqr (x - z)). pose proof (Rle_0_sqr (y - z)). unfold Rsqr in *. nra. }
  destruct (Rle_or_lt (x + y + z) 1.7321); [assumption|]. nra.
Qed.
Lemma dot_near : forall e X1 X2 X3 Y1 Y2 Y3 x1 x2 x3 y1 y2 y3, 0 <= e ->
  Rabs X1 + Rabs X2 + Rabs X3 <= 1.7321 -> Rabs Y1 + Rabs Y2 + Rabs Y3 <= 1.7321 ->
  Rabs (x1 - X1) <= e -> Rabs (x2 - X2) <= e -> Rabs (x3 - X3) <= e ->
  Rabs (y1 - Y1) <= e -> Rabs (y2 - Y2) <= e -> Rabs (y3 - Y3) <= e ->
  Rabs (dot3 (x1, x2, x3) (y1, y2, y3) - dot3 (X1, X2, X3) (Y1, Y2, Y3)) <= 3.4642 * e + 3 * e * e.
Proof.
  intros e X1 X2 X3 Y1 Y2 Y3 x1 x2 x3 y1 y2 y3 E SX SY A1 A2 A3 B1 B2 B3. unfold dot3.
  assert (T : forall x X y Y, Rabs (x - X) <= e -> Rabs (y - Y) <= e -> Rabs (x * y - X * Y) <= e * Rabs X + e * Rabs Y + e * e).
  { intros x X y Y A B. replace (x * y - X * Y) with ((x - X) * Y + X * (y - Y) + (x - X) * (y - Y)) by ring.
    eapply Rle_trans. apply Rabs_triang. eapply Rle_trans. apply Rplus_le_compat_r. apply Rabs_triang. rewrite !Rabs_mult.
    pose proof (Rabs_pos X). pose proof (Rabs_pos Y). pose proof (Rabs_pos (x - X)). pose proof (Rabs_pos (y - Y)).
    assert (Rabs (x - X) * Rabs (y - Y) <= e * e) by (apply Rmult_le_compat; assumption). nra. }
  pose proof (T _ _ _ _ A1 B1) as T1. pose proof (T _ _ _ _ A2 B2) as T2. pose proof (T _ _ _ _ A3 B3) as T3. clear T.
  replace (x1 * y1 + x2 * y2 + x3 * y3 - (X1 * Y1 + X2 * Y2 + X3 * Y3)) with ((x1 * y1 - X1 * Y1) + (x2 * y2 - X2 * Y2) + (x3 * y3 - X3 * Y3)) by ring.
  eapply Rle_trans. apply Rabs_triang. eapply Rle_trans. apply Rplus_le_compat_r. apply Rabs_triang. nra.
Qed.

(** The matrix of a pose with its entries. *)
Lemma pose_rows : forall s c r p y t1 t2 t3, trig_accurate s c -> angle r -> angle p -> angle y ->
  exists a b d, to_homogeneous F32A (t1, t2, t3) (euler_quaternion F32A s c r p y) = [a ++ [t1]; b ++ [t2]; d ++ [t3]; [f0; f0; f0; f1]] /\
    length a = 3%nat /\ length b = 3%nat /\ length d = 3%nat /\ Forall (fun x => is_finite x = true) (a ++ b ++ d) /\
    let '(A, B, D) := euler_rows (B2R r) (B2R p) (B2R y) in
    near3 (104.5 * u32) (triple a) A /\ near3 (104.5 * u32) (triple b) B /\ near3 (104.5 * u32) (triple d) D.
Proof.
  intros s c r p y t1 t2 t3 H Hr Hp Hy. destruct (euler_near s c r p y H Hr Hp Hy) as (a1 & a2 & a3 & b1 & b2 & b3 & c1 & c2 & c3 & E & K).
  exists [a1; a2; a3], [b1; b2; b3], [c1; c2; c3]. unfold to_homogeneous. rewrite E. split; [reflexivity|]. do 3 (split; [reflexivity|]).
  destruct (euler_rows (B2R r) (B2R p) (B2R y)) as [[[[A1 A2] A3] [[B1 B2] B3]] [[C1 C2] C3]].
  destruct K as (((F1 & K1) & (F2 & K2) & (F3 & K3)) & ((F4 & K4) & (F5 & K5) & (F6 & K6)) & ((F7 & K7) & (F8 & K8) & (F9 & K9))).
  split. { repeat (apply Forall_cons; [assumption|]). apply Forall_nil. }
  unfold near3, triple, real. cbn [nth]. auto 10.
Qed.

Lemma rows_rigid : forall r p y a b c, near3 (104.5 * u32) a (fst (fst (euler_rows r p y))) ->
  near3 (104.5 * u32) b (snd (fst (euler_rows r p y))) -> near3 (104.5 * u32) c (snd (euler_rows r p y)) -> near_rigid (bp (-15)) a b c.
Proof.
  intros r p y a b c. pose proof (euler_rigid r p y) as G. destruct (euler_rows r p y) as [[[[A1 A2] A3] [[B1 B2] B3]] [[C1 C2] C3]]. cbn [fst snd].
  destruct a as [[a1 a2] a3], b as [[b1 b2] b3], c as [[c1 c2] c3]. unfold near3, near_rigid, rigid in *.
  intros (H1 & H2 & H3) (H4 & H5 & H6) (H7 & H8 & H9). destruct G as (G1 & G2 & G3 & G4 & G5 & G6).
  assert (S1 : Rabs A1 + Rabs B1 + Rabs C1 <= 1.7321) by (apply unit_sum; exact G1).
  assert (S2 : Rabs A2 + Rabs B2 + Rabs C2 <= 1.7321) by (apply unit_sum; exact G2).
  assert (S3 : Rabs A3 + Rabs B3 + Rabs C3 <= 1.7321) by (apply unit_sum; exact G3).
  assert (U : u32 = / 16777216) by reflexivity.
  set (e := 104.5 * u32) in *. assert (E : 0 <= e) by (unfold e; rewrite U; lra).
  assert (L : 3.4642 * e + 3 * e * e <= bp (-15)). { change (bp (-15)) with (/ 32768). unfold e. rewrite U. lra. }
  pose proof (dot_near e A1 B1 C1 A1 B1 C1 a1 b1 c1 a1 b1 c1 E S1 S1 H1 H4 H7 H1 H4 H7) as D1.
  pose proof (dot_near e A2 B2 C2 A2 B2 C2 a2 b2 c2 a2 b2 c2 E S2 S2 H2 H5 H8 H2 H5 H8) as D2.
  pose proof (dot_near e A3 B3 C3 A3 B3 C3 a3 b3 c3 a3 b3 c3 E S3 S3 H3 H6 H9 H3 H6 H9) as D3.
  pose proof (dot_near e A1 B1 C1 A2 B2 C2 a1 b1 c1 a2 b2 c2 E S1 S2 H1 H4 H7 H2 H5 H8) as D4.
  pose proof (dot_near e A1 B1 C1 A3 B3 C3 a1 b1 c1 a3 b3 c3 E S1 S3 H1 H4 H7 H3 H6 H9) as D5.
  pose proof (dot_near e A2 B2 C2 A3 B3 C3 a2 b2 c2 a3 b3 c3 E S2 S3 H2 H5 H8 H3 H6 H9) as D6.
  rewrite G1 in D1. rewrite G2 in D2. rewrite G3 in D3. rewrite G4, Rminus_0_r in D4. rewrite G5, Rminus_0_r in D5. rewrite G6, Rminus_0_r in D6.
  repeat split; (eapply Rle_trans; [|exact L]); assumption.
Qed.

Lemma sized_moderate : forall D x, D <= bp 40 -> sized D x -> moderate x.
Proof. intros D x L [F H]. split; [assumption|lra]. Qed.
Lemma entry_small : forall a b c A B C, near3 (104.5 * u32) (a, b, c) (A, B, C) -> A * A + B * B + C * C = 1 ->
  Rabs a <= 1001/1000 /\ Rabs b <= 1001/1000 /\ Rabs c <= 1001/1000.
Proof.
  intros a b c A B C (H1 & H2 & H3) N. assert (U : u32 = / 16777216) by reflexivity. rewrite U in *.
  pose proof (Rle_0_sqr A). pose proof (Rle_0_sqr B). pose proof (Rle_0_sqr C). unfold Rsqr in *.
  assert (Rabs A <= 1) by (apply Rabs_le; nra). assert (Rabs B <= 1) by (apply Rabs_le; nra). assert (Rabs C <= 1) by (apply Rabs_le; nra).
  assert (T : forall x X, Rabs (x - X) <= 104.5 * / 16777216 -> Rabs X <= 1 -> Rabs x <= 1001/1000).
  { intros x X P Q. replace x with ((x - X) + X) by ring. eapply Rle_trans. apply Rabs_triang. lra. }
  split; [|split]; eapply T; eassumption.
Qed.
Lemma euler_row_units : forall r p y, let '((A1, A2, A3), (B1, B2, B3), (C1, C2, C3)) := euler_rows r p y in
  A1 * A1 + A2 * A2 + A3 * A3 = 1 /\ B1 * B1 + B2 * B2 + B3 * B3 = 1 /\ C1 * C1 + C2 * C2 + C3 * C3 = 1.
Proof.
  intros r p y. unfold euler_rows.
  pose proof (sin2_cos2 r) as A. pose proof (sin2_cos2 p) as B. pose proof (sin2_cos2 y) as C. unfold Rsqr in *.
  assert (A' : cos r * cos r = 1 - sin r * sin r) by lra. assert (B' : cos p * cos p = 1 - sin p * sin p) by lra.
  assert (C' : cos y * cos y = 1 - sin y * sin y) by lra.
  split; [|split]; ring [A' B' C'].
Qed.

Lemma row_place : forall D a1 a2 a3 t A (p : point) v, 0 <= D ->
  near3 (104.5 * u32) (triple [a1; a2; a3]) A -> Rabs (real t) <= D -> length p = 3%nat -> Forall (sized D) p ->
  (let '(A1, A2, A3) := A in A1 * A1 + A2 * A2 + A3 * A3 = 1) ->
  near_affine [a1; a2; a3; t] p v -> Rabs (real v - (dot3 A (triple p) + real t)) <= bp (-15) * D + bp (-147).
Proof.
  intros D a1 a2 a3 t [[A1 A2] A3] p v P N T L S U1 H. change (near3 (104.5 * u32) (real a1, real a2, real a3) (A1, A2, A3)) in N.
  destruct (entry_small _ _ _ _ _ _ N U1) as (I1 & I2 & I3).
  assert (Sp : Forall (fun x => Rabs (real x) <= D) p). { eapply Forall_impl; [|exact S]. now intros x [_ K]. }
  pose proof (row_bound D [a1; a2; a3; t] p v eq_refl L P I1 I2 I3 T Sp H) as Q. cbn [nth] in Q.
  destruct p as [|x [|y [|z [|]]]]; try discriminate L. unfold triple, dot3 in *. cbn [nth] in *.
  inversion_clear Sp as [|? ? X Sq]. inversion_clear Sq as [|? ? Y Sr]. inversion_clear Sr as [|? ? Z _].
  destruct N as (N1 & N2 & N3). assert (U : u32 = / 16777216) by reflexivity. change (bp (-15)) with (/ 32768). rewrite U in *.
  assert (M : forall m w, Rabs m <= 104.5 * / 16777216 -> Rabs w <= D -> Rabs (m * w) <= 104.5 * / 16777216 * D).
  { intros. rewrite Rabs_mult. apply Rmult_le_compat; try apply Rabs_pos; assumption. }
  pose proof (M _ _ N1 X). pose proof (M _ _ N2 Y). pose proof (M _ _ N3 Z).
  replace (real v - (A1 * real x + A2 * real y + A3 * real z + real t)) with
    ((real v - (real a1 * real x + real a2 * real y + real a3 * real z + real t)) + ((real a1 - A1) * real x + (real a2 - A2) * real y + (real a3 - A3) * real z)) by ring.
  eapply Rle_trans. apply Rabs_triang.
  assert (Rabs ((real a1 - A1) * real x + (real a2 - A2) * real y + (real a3 - A3) * real z) <= 3 * (104.5 * / 16777216 * D)).
  { eapply Rle_trans. apply Rabs_triang. eapply Rle_trans. apply Rplus_le_compat_r. apply Rabs_triang. lra. }
  lra.
Qed.

Definition triple3 (t : f32 * f32 * f32) : R * R * R := let '(x, y, z) := t in (real x, real y, real z).
Lemma pose_rows_ok : forall D s c r p y t1 t2 t3, trig_accurate s c -> angle r -> angle p -> angle y -> D <= bp 40 -> Forall (sized D) [t1; t2; t3] ->
  exists a1 a2 a3 b1 b2 b3 d1 d2 d3,
    let r1 := [a1; a2; a3; t1] in let r2 := [b1; b2; b3; t2] in let r3 := [d1; d2; d3; t3] in
    to_homogeneous F32A (t1, t2, t3) (euler_quaternion F32A s c r p y) = [r1; r2; r3; [f0; f0; f0; f1]] /\
    Forall (fun row => length row = 4%nat /\ Forall moderate row) [r1; r2; r3] /\
    near3 (104.5 * u32) (triple r1) (fst (fst (euler_rows (B2R r) (B2R p) (B2R y)))) /\
    near3 (104.5 * u32) (triple r2) (snd (fst (euler_rows (B2R r) (B2R p) (B2R y)))) /\
    near3 (104.5 * u32) (triple r3) (snd (euler_rows (B2R r) (B2R p) (B2R y))).
Proof.
  intros D s c r p y t1 t2 t3 H Hr Hp Hy LD St. destruct (pose_rows s c r p y t1 t2 t3 H Hr Hp Hy) as (a & b & d & E & La & Lb & Ld & F & K).
  destruct a as [|a1 [|a2 [|a3 [|]]]]; try discriminate La. destruct b as [|b1 [|b2 [|b3 [|]]]]; try discriminate Lb. destruct d as [|d1 [|d2 [|d3 [|]]]]; try discriminate Ld.
  exists a1, a2, a3, b1, b2, b3, d1, d2, d3. cbv zeta. split; [exact E|].
  pose proof (euler_row_units (B2R r) (B2R p) (B2R y)) as U. destruct (euler_rows (B2R r) (B2R p) (B2R y)) as [[[[A1 A2] A3] [[B1 B2] B3]] [[C1 C2] C3]].
  destruct U as (U1 & U2 & U3). destruct K as (K1 & K2 & K3). cbn [fst snd]. split; [|auto].
  destruct (entry_small _ _ _ _ _ _ K1 U1) as (I1 & I2 & I3). destruct (entry_small _ _ _ _ _ _ K2 U2) as (I4 & I5 & I6). destruct (entry_small _ _ _ _ _ _ K3 U3) as (I7 & I8 & I9).
  cbn [app] in F. repeat match goal with H : Forall _ (_ :: _) |- _ => inversion_clear H end.
  assert (M : forall x, is_finite x = true -> Rabs (real x) <= 1001/1000 -> moderate x).
  { intros x Fx Bx. split; [exact Fx|]. apply Rle_trans with (1 := Bx). apply Rle_trans with (bp 1); [change (bp 1) with 2; lra|apply bpow_le; lia]. }
  cbn [nth] in *.
  repeat (apply Forall_cons; [split; [reflexivity|repeat (apply Forall_cons; [first [apply M; assumption|eapply sized_moderate; eassumption]|]); apply Forall_nil]|]). apply Forall_nil.
Qed.

Lemma placed : forall s c r p y t D m, trig_accurate s c -> angle r -> angle p -> angle y -> 0 <= D <= bp 40 ->
  (let '(t1, t2, t3) := t in Forall (sized D) [t1; t2; t3]) -> matrix_ok m -> nrows m = 3%nat -> Forall (sized D) (mdata m) ->
  Forall2 (fun v w => length w = 3%nat /\ Forall finite w /\
      near3 (bp (-15) * D + bp (-147)) (triple w) (plus3 (turned (real r) (real p) (real y) (triple v)) (triple3 t)))
    (pc_points m) (pc_points (pc_transform (to_homogeneous F32A t (euler_quaternion F32A s c r p y)) m)).
Proof.
  intros s c r p y [[t1 t2] t3] D m H Hr Hp Hy [P LD] St O N Sm.
  destruct (pose_rows_ok D s c r p y t1 t2 t3 H Hr Hp Hy LD St) as (a1 & a2 & a3 & b1 & b2 & b3 & d1 & d2 & d3 & E & R & K1 & K2 & K3). rewrite E.
  assert (Mm : Forall moderate (mdata m)). { eapply Forall_impl; [|exact Sm]. intros x Q. eapply sized_moderate; eassumption. }
  pose proof (transform_error _ _ _ [f0; f0; f0; f1] m O N Mm R) as T. pose proof (points_all _ m Sm) as PA.
  assert (LP : Forall (fun p : point => length p = 3%nat) (pc_points m)).
  { pose proof (pc_points_length m O) as L. rewrite N in L. exact L. }
  pose proof (euler_row_units (B2R r) (B2R p) (B2R y)) as U.
  revert PA LP. induction T as [|v w lv lw (v1 & v2 & v3 & -> & T1 & T2 & T3) T IH]; intros PA LP; constructor.
  - inversion_clear PA as [|? ? Sv _]. inversion_clear LP as [|? ? Lv _]. split; [reflexivity|].
    split. { destruct T1, T2, T3. repeat (apply Forall_cons; [assumption|]). apply Forall_nil. }
    inversion_clear St as [|? ? [_ S1] St']. inversion_clear St' as [|? ? [_ S2] St'']. inversion_clear St'' as [|? ? [_ S3] _].
    rewrite turned_rows. unfold real at 1 2 3. destruct (euler_rows (B2R r) (B2R p) (B2R y)) as [[[[A1 A2] A3] [[B1 B2] B3]] [[C1 C2] C3]]. cbn [fst snd] in *. destruct U as (U1 & U2 & U3).
    unfold near3, apply3, plus3, triple3, triple at 1. cbn [nth].
    split; [exact (row_place D _ _ _ _ (A1, A2, A3) _ _ P K1 S1 Lv Sv U1 T1)|].
    split; [exact (row_place D _ _ _ _ (B1, B2, B3) _ _ P K2 S2 Lv Sv U2 T2)|exact (row_place D _ _ _ _ (C1, C2, C3) _ _ P K3 S3 Lv Sv U3 T3)].
  - inversion_clear PA. inversion_clear LP. apply IH; assumption.
Qed.

Lemma placed_distances : forall s c r p y t D m i j v w v' w', trig_accurate s c -> angle r -> angle p -> angle y -> 0 <= D <= bp 40 ->
  (let '(t1, t2, t3) := t in Forall (sized D) [t1; t2; t3]) -> matrix_ok m -> nrows m = 3%nat -> Forall (sized D) (mdata m) ->
  let m' := pc_transform (to_homogeneous F32A t (euler_quaternion F32A s c r p y)) m in
  nth_error (pc_points m) i = Some v -> nth_error (pc_points m) j = Some w ->
  nth_error (pc_points m') i = Some v' -> nth_error (pc_points m') j = Some w' ->
  Rabs (sqrt (dist2 (triple v') (triple w')) - sqrt (dist2 (triple v) (triple w))) <=
    3 * bp (-15) * sqrt (dist2 (triple v) (triple w)) + 72 * bp (-24) * D + bp (-140).
Proof.
  intros s c r p y [[t1 t2] t3] D m i j v w v' w' H Hr Hp Hy [P LD] St O N Sm m' E1 E2 E3 E4.
  destruct (pose_rows_ok D s c r p y t1 t2 t3 H Hr Hp Hy LD St) as (a1 & a2 & a3 & b1 & b2 & b3 & d1 & d2 & d3 & E & R & K1 & K2 & K3).
  unfold m' in *. rewrite E in *.
  eapply transform_distances; try eassumption.
  - eapply Forall_impl; [|exact Sm]. intros x Q. eapply sized_moderate; eassumption.
  - eapply Forall_impl; [|exact Sm]. now intros x [_ Q].
  - inversion_clear St as [|? ? [_ S1] St']. inversion_clear St' as [|? ? [_ S2] St'']. inversion_clear St'' as [|? ? [_ S3] _].
    repeat (apply Forall_cons; [assumption|]). apply Forall_nil.
  - split; [apply bpow_ge_0|apply bpow_le; lia].
  - eapply rows_rigid; eassumption.
Qed.

Lemma pose_columns : forall s c r p y t1 t2 t3, trig_accurate s c -> angle r -> angle p -> angle y ->
  exists a1 a2 a3 b1 b2 b3 d1 d2 d3,
    to_homogeneous F32A (t1, t2, t3) (euler_quaternion F32A s c r p y) = [[a1; a2; a3; t1]; [b1; b2; b3; t2]; [d1; d2; d3; t3]; [f0; f0; f0; f1]] /\
    Forall finite [a1; a2; a3; b1; b2; b3; d1; d2; d3] /\
    near3 (bp (-17)) (triple [a1; b1; d1]) (turned (real r) (real p) (real y) (1, 0, 0)) /\
    near3 (bp (-17)) (triple [a2; b2; d2]) (turned (real r) (real p) (real y) (0, 1, 0)) /\
    near3 (bp (-17)) (triple [a3; b3; d3]) (turned (real r) (real p) (real y) (0, 0, 1)) /\
    near_rigid (bp (-15)) (triple [a1; a2; a3]) (triple [b1; b2; b3]) (triple [d1; d2; d3]).
Proof.
  intros s c r p y t1 t2 t3 H Hr Hp Hy. destruct (pose_rows s c r p y t1 t2 t3 H Hr Hp Hy) as (a & b & d & E & La & Lb & Ld & F & K).
  destruct a as [|a1 [|a2 [|a3 [|]]]]; try discriminate La. destruct b as [|b1 [|b2 [|b3 [|]]]]; try discriminate Lb. destruct d as [|d1 [|d2 [|d3 [|]]]]; try discriminate Ld.
  exists a1, a2, a3, b1, b2, b3, d1, d2, d3. split; [exact E|]. split; [exact F|]. rewrite !turned_rows. unfold real at 1 2 3 4 5 6 7 8 9.
  pose proof (rows_rigid (B2R r) (B2R p) (B2R y) (triple [a1; a2; a3]) (triple [b1; b2; b3]) (triple [d1; d2; d3])) as G.
  destruct (euler_rows (B2R r) (B2R p) (B2R y)) as [[[[A1 A2] A3] [[B1 B2] B3]] [[C1 C2] C3]]. cbn [fst snd] in G. destruct K as (K1 & K2 & K3).
  assert (L : 104.5 * u32 <= bp (-17)) by (change (bp (-17)) with (/ 131072); unfold u32; lra).
  assert (W : forall x X, Rabs (x - X) <= 104.5 * u32 -> forall Y, Y = X -> Rabs (x - Y) <= bp (-17)) by (intros x X Q Y ->; lra).
  split; [|split; [|split; [|exact (G K1 K2 K3)]]]; clear G; unfold near3, triple, apply3, dot3 in *; cbn [nth] in *;
  destruct K1 as (I1 & I2 & I3), K2 as (I4 & I5 & I6), K3 as (I7 & I8 & I9).
  - split; [|split]; eapply W; try eassumption; ring.
  - split; [|split]; eapply W; try eassumption; ring.
  - split; [|split]; eapply W; try eassumption; ring.
Qed.
