(** The frame marker. *)
From Coq Require Import ZArith List Bool Reals Lra Lia Psatz.
From Flocq Require Import Core BinarySingleNaN.
From Verif Require Import Base F32 FloatFacts RoundError Arith Geom NoiseModel Kitti Spec SpecMap SpecNoise SpecKitti MathProofs PoseProofs Viz SpecViz VizProofs Pose SpecPose SpecMain StartProofs SettleProofs Draw SpecDraw.
Open Scope R_scope.

(** ** In exact arithmetic *)
Lemma rotate_rows : forall w i j k v1 v2 v3, w * w + i * i + j * j + k * k = 1 ->
  rotate RealA (Fin w, Fin i, Fin j, Fin k) (Fin v1, Fin v2, Fin v3) =
  fin3 (apply3 ((w * w + i * i - j * j - k * k, i * j * 2 - w * k * 2, w * j * 2 + i * k * 2),
                (w * k * 2 + i * j * 2, w * w - i * i + j * j - k * k, j * k * 2 - w * i * 2),
                (i * k * 2 - w * j * 2, w * i * 2 + j * k * 2, w * w - i * i - j * j + k * k)) (v1, v2, v3)).
Proof.
  intros w i j k v1 v2 v3 H. assert (H' : w * w = 1 - i * i - j * j - k * k) by lra.
  unfold rotate, added, scaled, cross, fin3, apply3, dot3. cbn [RealA tmul tadd tsub t_of_isize xlift2].
  f_equal; [f_equal|]; apply f_equal; ring [H'].
Qed.
Lemma exact_quat : forall r p y, exists w i j k,
  euler_quaternion RealA (xlift1 sin) (xlift1 cos) (Fin r) (Fin p) (Fin y) = (Fin w, Fin i, Fin j, Fin k) /\ w * w + i * i + j * j + k * k = 1 /\
    euler_rows r p y =
      ((w * w + i * i - j * j - k * k, i * j * 2 - w * k * 2, w * j * 2 + i * k * 2),
       (w * k * 2 + i * j * 2, w * w - i * i + j * j - k * k, j * k * 2 - w * i * 2),
       (i * k * 2 - w * j * 2, w * i * 2 + j * k * 2, w * w - i * i - j * j + k * k)).
Proof.
  intros r p y. destruct (half_angle r) as (A1 & A2 & A3). destruct (half_angle p) as (B1 & B2 & B3). destruct (half_angle y) as (C1 & C2 & C3).
  unfold euler_rows. rewrite A1, A2, B1, B2, C1, C2. unfold euler_quaternion. cbn [RealA tmul tadd tsub thalf t_of_isize xlift1 xlift2].
  set (cr := cos (r * (1/2))) in *. set (sr := sin (r * (1/2))) in *. set (cp := cos (p * (1/2))) in *. set (sp := sin (p * (1/2))) in *.
  set (cy := cos (y * (1/2))) in *. set (sy := sin (y * (1/2))) in *.
  destruct (quat_rows cr sr cp sp cy sy A3 B3 C3) as ((E1 & E2 & E3) & (E4 & E5 & E6) & (E7 & E8 & E9) & N).
  exists (qw cr sr cp sp cy sy), (qi cr sr cp sp cy sy), (qj cr sr cp sp cy sy), (qk cr sr cp sp cy sy).
  split; [reflexivity|]. split; [exact N|]. now rewrite E1, E2, E3, E4, E5, E6, E7, E8, E9.
Qed.
Lemma exact_rotate : forall r p y v1 v2 v3,
  rotate RealA (euler_quaternion RealA (xlift1 sin) (xlift1 cos) (Fin r) (Fin p) (Fin y)) (Fin v1, Fin v2, Fin v3) = fin3 (turned r p y (v1, v2, v3)).
Proof.
  intros. destruct (exact_quat r p y) as (w & i & j & k & -> & N & E). rewrite rotate_rows by assumption. now rewrite turned_rows, E.
Qed.
Lemma turned_zero : forall r p y, turned r p y (0, 0, 0) = (0, 0, 0).
Proof. intros. unfold turned, apply3, about_x, about_y, about_z, dot3. f_equal; [f_equal|]; ring. Qed.
Lemma exact_marker : forall r p y t len,
  frame_marker RealA (fin3 t) (euler_quaternion RealA (xlift1 sin) (xlift1 cos) (Fin r) (Fin p) (Fin y)) (Fin len) =
  map (fun e => mkLine RealA (fin3 t) (fin3 (plus3 t (turned r p y (fst e)))) (fin3 (snd e)))
    [((len, 0, 0), (1, 0, 0)); ((0, len, 0), (0, 1, 0)); ((0, 0, len), (0, 0, 1))].
Proof.
  intros r p y t len. unfold frame_marker, transform_point. cbn [RealA tzero tone]. rewrite !exact_rotate, turned_zero.
  assert (P : forall u v, added RealA (fin3 u) (fin3 v) = fin3 (plus3 u v)). { intros [[u1 u2] u3] [[v1 v2] v3]. reflexivity. }
  rewrite !P. assert (Z : plus3 (0, 0, 0) t = t). { destruct t as [[t1 t2] t3]. unfold plus3. f_equal; [f_equal|]; ring. }
  rewrite Z. reflexivity.
Qed.

(** ** With rounding *)

(** Numbers up to two. *)
Lemma approx_mul2 : forall k1 k2 x y a b, 0 <= k1 <= 1000 -> 0 <= k2 <= 1000 -> Rabs a <= 1 -> Rabs b <= 2 ->
  approx k1 x a -> approx k2 y b -> approx (2 * k1 + k2 + 2.2) (fmul x y) (a * b).
Proof.
  intros k1 k2 x y a b K1 K2 Ha Hb [Fx Hx] [Fy Hy].
  assert (U : u32 = / 16777216) by reflexivity.
  set (X := B2R x) in *. set (Y := B2R y) in *.
  assert (P : Rabs (X * Y - a * b) <= (2 * k1 + k2 + 0.06) * u32).
  { replace (X * Y - a * b) with ((X - a) * b + (Y - b) * a + (X - a) * (Y - b)) by ring.
    assert (Rabs ((X - a) * b) <= 2 * k1 * u32). { rewrite Rabs_mult. pose proof (Rabs_pos (X - a)). pose proof (Rabs_pos b). nra. }
    assert (Rabs ((Y - b) * a) <= k2 * u32). { rewrite Rabs_mult. pose proof (Rabs_pos (Y - b)). pose proof (Rabs_pos a). nra. }
    assert (Rabs ((X - a) * (Y - b)) <= 0.06 * u32).
    { rewrite Rabs_mult. apply Rle_trans with ((k1 * u32) * (k2 * u32)). apply Rmult_le_compat; auto using Rabs_pos.
      assert (k1 * k2 <= 1000 * 1000) by nra. nra. }
    pose proof (Rabs_triang ((X - a) * b + (Y - b) * a) ((X - a) * (Y - b))). pose proof (Rabs_triang ((X - a) * b) ((Y - b) * a)). lra. }
  assert (S : Rabs (X * Y) <= 2 + 3001 * u32).
  { replace (X * Y) with ((X * Y - a * b) + a * b) by ring. eapply Rle_trans. apply Rabs_triang.
    assert (Rabs (a * b) <= 2). { rewrite Rabs_mult. pose proof (Rabs_pos a). pose proof (Rabs_pos b). nra. } nra. }
  destruct (fmul_fin x y Fx Fy) as [F E]. { apply small_fin. fold X Y. lra. }
  split; [assumption|]. rewrite E. fold X Y. pose proof (rnd_err (X * Y)) as R. pose proof bp_m150_u as B.
  replace (rnd (X * Y) - a * b) with ((rnd (X * Y) - X * Y) + (X * Y - a * b)) by ring. eapply Rle_trans. apply Rabs_triang. nra.
Qed.
Lemma approx_add2 : forall k1 k2 x y a b, 0 <= k1 <= 1000 -> 0 <= k2 <= 1000 -> Rabs (a + b) <= 2 ->
  approx k1 x a -> approx k2 y b -> approx (k1 + k2 + 2.2) (fadd x y) (a + b).
Proof.
  intros k1 k2 x y a b K1 K2 Ha [Fx Hx] [Fy Hy].
  assert (U : u32 = / 16777216) by reflexivity.
  set (X := B2R x) in *. set (Y := B2R y) in *.
  assert (P : Rabs (X + Y - (a + b)) <= (k1 + k2) * u32).
  { replace (X + Y - (a + b)) with ((X - a) + (Y - b)) by ring. eapply Rle_trans. apply Rabs_triang. lra. }
  assert (S : Rabs (X + Y) <= 2 + 2000 * u32).
  { replace (X + Y) with ((X + Y - (a + b)) + (a + b)) by ring. eapply Rle_trans. apply Rabs_triang. nra. }
  destruct (fadd_fin x y Fx Fy) as [F E]. { apply small_fin. fold X Y. lra. }
  split; [assumption|]. rewrite E. fold X Y. pose proof (rnd_err (X + Y)) as R. pose proof bp_m150_u as B.
  replace (rnd (X + Y) - (a + b)) with ((rnd (X + Y) - (X + Y)) + (X + Y - (a + b))) by ring. eapply Rle_trans. apply Rabs_triang. nra.
Qed.
Lemma approx_sub2 : forall k1 k2 x y a b, 0 <= k1 <= 1000 -> 0 <= k2 <= 1000 -> Rabs (a - b) <= 2 ->
  approx k1 x a -> approx k2 y b -> approx (k1 + k2 + 2.2) (fsub x y) (a - b).
Proof.
  intros k1 k2 x y a b K1 K2 Ha [Fx Hx] [Fy Hy].
  assert (U : u32 = / 16777216) by reflexivity.
  set (X := B2R x) in *. set (Y := B2R y) in *.
  assert (P : Rabs (X - Y - (a - b)) <= (k1 + k2) * u32).
  { replace (X - Y - (a - b)) with ((X - a) + - (Y - b)) by ring. eapply Rle_trans. apply Rabs_triang. rewrite Rabs_Ropp. lra. }
  assert (S : Rabs (X - Y) <= 2 + 2000 * u32).
  { replace (X - Y) with ((X - Y - (a - b)) + (a - b)) by ring. eapply Rle_trans. apply Rabs_triang. nra. }
  destruct (fsub_fin x y Fx Fy) as [F E]. { apply small_fin. fold X Y. lra. }
  split; [assumption|]. rewrite E. fold X Y. pose proof (rnd_err (X - Y)) as R. pose proof bp_m150_u as B.
  replace (rnd (X - Y) - (a - b)) with ((rnd (X - Y) - (X - Y)) + (X - Y - (a - b))) by ring. eapply Rle_trans. apply Rabs_triang. nra.
Qed.
Lemma approx_mul2r : forall k1 k2 x y a b, 0 <= k1 <= 1000 -> 0 <= k2 <= 1000 -> Rabs a <= 2 -> Rabs b <= 1 ->
  approx k1 x a -> approx k2 y b -> approx (k1 + 2 * k2 + 2.2) (fmul x y) (a * b).
Proof.
  intros k1 k2 x y a b K1 K2 Ha Hb Hx Hy. destruct (approx_mul2 k2 k1 y x b a K2 K1 Hb Ha Hy Hx) as [F H].
  assert (S : Rabs (rnd (B2R x * B2R y)) < bp 128).
  { apply small_fin. destruct Hx as [_ Hx], Hy as [_ Hy]. assert (U : u32 = / 16777216) by reflexivity. rewrite U in *.
    assert (Rabs (B2R x) <= 3). { replace (B2R x) with ((B2R x - a) + a) by ring. eapply Rle_trans. apply Rabs_triang. lra. }
    assert (Rabs (B2R y) <= 2). { replace (B2R y) with ((B2R y - b) + b) by ring. eapply Rle_trans. apply Rabs_triang. lra. }
    rewrite Rabs_mult. pose proof (Rabs_pos (B2R x)). pose proof (Rabs_pos (B2R y)). nra. }
  destruct (fmul_fin x y (proj1 Hx) (proj1 Hy) S) as [G E]. rewrite Rmult_comm in S. destruct (fmul_fin y x (proj1 Hy) (proj1 Hx) S) as [_ E'].
  split; [assumption|]. rewrite E' in H. rewrite E, (Rmult_comm (B2R x)), (Rmult_comm a). lra.
Qed.

Lemma sq_abs : forall x c, 0 <= c -> x * x <= c * c -> Rabs x <= c.
Proof. intros x c P H. apply Rabs_le. split; nra. Qed.

Definition near_vec (k : R) (v : f32 * f32 * f32) (r : R * R * R) : Prop :=
  let '(x, y, z) := v in let '(a, b, c) := r in approx k x a /\ approx k y b /\ approx k z c.

Lemma rotate_near : forall fw fi fj fk w i j k f v, w * w + i * i + j * j + k * k = 1 ->
  approx 12.1 fw w -> approx 12.1 fi i -> approx 12.1 fj j -> approx 12.1 fk k -> near_vec 0 f v -> dot3 v v = 1 ->
  near_vec 257 (rotate F32A (fw, fi, fj, fk) f)
    (apply3 ((w * w + i * i - j * j - k * k, i * j * 2 - w * k * 2, w * j * 2 + i * k * 2),
             (w * k * 2 + i * j * 2, w * w - i * i + j * j - k * k, j * k * 2 - w * i * 2),
             (i * k * 2 - w * j * 2, w * i * 2 + j * k * 2, w * w - i * i - j * j + k * k)) v).
Proof.
  intros fw fi fj fk w i j k [[f1' f2'] f3'] [[v1 v2] v3] N Aw Ai Aj Ak (V1 & V2 & V3) U. unfold dot3 in U.
  assert (H' : w * w = 1 - i * i - j * j - k * k) by lra.
  pose proof (Rle_0_sqr w) as Pw. pose proof (Rle_0_sqr i) as Pi. pose proof (Rle_0_sqr j) as Pj. pose proof (Rle_0_sqr k) as Pk. unfold Rsqr in *.
  pose proof (Rle_0_sqr v1) as P1. pose proof (Rle_0_sqr v2) as P2. pose proof (Rle_0_sqr v3) as P3. unfold Rsqr in *.
  assert (Bw : Rabs w <= 1) by (apply sq_abs; lra). assert (Bi : Rabs i <= 1) by (apply sq_abs; lra).
  assert (Bj : Rabs j <= 1) by (apply sq_abs; lra). assert (Bk : Rabs k <= 1) by (apply sq_abs; lra).
  assert (B1 : Rabs v1 <= 1) by (apply sq_abs; lra). assert (B2 : Rabs v2 <= 1) by (apply sq_abs; lra). assert (B3 : Rabs v3 <= 1) by (apply sq_abs; lra).
  set (cx := j * v3 - k * v2). set (cy := k * v1 - i * v3). set (cz := i * v2 - j * v1).
  assert (SC : cx * cx + cy * cy + cz * cz <= 1).
  { assert (I : cx * cx + cy * cy + cz * cz = (i * i + j * j + k * k) * (v1 * v1 + v2 * v2 + v3 * v3) - (i * v1 + j * v2 + k * v3) * (i * v1 + j * v2 + k * v3)) by (unfold cx, cy, cz; ring).
    rewrite I, U. pose proof (Rle_0_sqr (i * v1 + j * v2 + k * v3)). unfold Rsqr in *. lra. }
  pose proof (Rle_0_sqr cx) as Px. pose proof (Rle_0_sqr cy) as Py. pose proof (Rle_0_sqr cz) as Pz. unfold Rsqr in *.
  assert (Bx : Rabs cx <= 1) by (apply sq_abs; lra). assert (By : Rabs cy <= 1) by (apply sq_abs; lra). assert (Bz : Rabs cz <= 1) by (apply sq_abs; lra).
  assert (M1 : forall x y a b, Rabs a <= 1 -> Rabs b <= 1 -> approx 12.1 x a -> approx 0 y b -> approx 13.2 (fmul x y) (a * b)).
  { intros x y a b Ha Hb Hx Hy. eapply approx_weaken; [|apply (approx_mul 12.1 0)]; try eassumption; lra. }
  assert (Cx : approx 27.5 (fsub (fmul fj f3') (fmul fk f2')) cx).
  { eapply approx_weaken; [|apply (approx_sub 13.2 13.2)]; [lra|lra|lra|exact Bx|apply M1; assumption|apply M1; assumption]. }
  assert (Cy : approx 27.5 (fsub (fmul fk f1') (fmul fi f3')) cy).
  { eapply approx_weaken; [|apply (approx_sub 13.2 13.2)]; [lra|lra|lra|exact By|apply M1; assumption|apply M1; assumption]. }
  assert (Cz : approx 27.5 (fsub (fmul fi f2') (fmul fj f1')) cz).
  { eapply approx_weaken; [|apply (approx_sub 13.2 13.2)]; [lra|lra|lra|exact Bz|apply M1; assumption|apply M1; assumption]. }
  clear M1.
  assert (M2 : forall x a, Rabs a <= 1 -> approx 27.5 x a -> approx 57.2 (fmul x (f32_of_Z 2)) (a * 2)).
  { intros x a Ha Hx. eapply approx_weaken; [|apply (approx_mul2 27.5 0)]; try eassumption; try lra; [rewrite Rabs_pos_eq; lra|].
    destruct (f32_of_Z_exact 2) as [F2 E2]; [lia|]. split; [exact F2|]. rewrite E2. replace (2 - 2) with 0 by ring. rewrite Rabs_R0. lra. }
  pose proof (M2 _ _ Bx Cx) as Tx. pose proof (M2 _ _ By Cy) as Ty. pose proof (M2 _ _ Bz Cz) as Tz. clear M2.
  unfold rotate, added, scaled, cross, near_vec, apply3, dot3. cbn [F32A tmul tadd tsub t_of_isize].
  set (gx := fmul (fsub (fmul fj f3') (fmul fk f2')) (f32_of_Z 2)) in *. set (gy := fmul (fsub (fmul fk f1') (fmul fi f3')) (f32_of_Z 2)) in *.
  set (gz := fmul (fsub (fmul fi f2') (fmul fj f1')) (f32_of_Z 2)) in *. clearbody gx gy gz.
  set (tx := cx * 2) in *. set (ty := cy * 2) in *. set (tz := cz * 2) in *.
  assert (Dx : Rabs tx <= 2). { unfold tx. rewrite Rabs_mult, (Rabs_pos_eq 2); lra. }
  assert (Dy : Rabs ty <= 2). { unfold ty. rewrite Rabs_mult, (Rabs_pos_eq 2); lra. }
  assert (Dz : Rabs tz <= 2). { unfold tz. rewrite Rabs_mult, (Rabs_pos_eq 2); lra. }
  assert (M3 : forall x y a b, Rabs a <= 1 -> Rabs b <= 2 -> approx 12.1 x a -> approx 57.2 y b -> approx 83.6 (fmul x y) (a * b)).
  { intros x y a b Ha Hb Hx Hy. eapply approx_weaken; [|apply (approx_mul2 12.1 57.2)]; try eassumption; lra. }
  assert (M4 : forall x y a b, Rabs a <= 2 -> Rabs b <= 1 -> approx 57.2 x a -> approx 12.1 y b -> approx 83.6 (fmul x y) (a * b)).
  { intros x y a b Ha Hb Hx Hy. eapply approx_weaken; [|apply (approx_mul2r 57.2 12.1)]; try eassumption; lra. }
  assert (CR : forall p q a b, p * p + q * q <= 1 -> a * a + b * b <= 4 -> Rabs (p * b - q * a) <= 2).
  { intros p q a b Hp Ha. apply sq_abs; [lra|]. assert (I : (p * b - q * a) * (p * b - q * a) = (p * p + q * q) * (a * a + b * b) - (p * a + q * b) * (p * a + q * b)) by ring.
    rewrite I. pose proof (Rle_0_sqr (p * a + q * b)). pose proof (Rle_0_sqr p). pose proof (Rle_0_sqr q). pose proof (Rle_0_sqr a). pose proof (Rle_0_sqr b). unfold Rsqr in *. nra. }
  assert (ST : tx * tx + ty * ty + tz * tz <= 4) by (unfold tx, ty, tz; nra).
  pose proof (Rle_0_sqr tx) as Qx. pose proof (Rle_0_sqr ty) as Qy. pose proof (Rle_0_sqr tz) as Qz. unfold Rsqr in Qx, Qy, Qz.
  assert (M5 : forall p q a b fp fq ga gb, p * p + q * q <= 1 -> a * a + b * b <= 4 -> Rabs p <= 1 -> Rabs q <= 1 -> Rabs a <= 2 -> Rabs b <= 2 ->
    approx 12.1 fp p -> approx 12.1 fq q -> approx 57.2 ga a -> approx 57.2 gb b -> approx 169.4 (fsub (fmul fp gb) (fmul fq ga)) (p * b - q * a)).
  { intros p q a b fp fq ga gb H1 H2 H3 H4 H5 H6 H7 H8 H9 H10. eapply approx_weaken; [|apply (approx_sub2 83.6 83.6)]; [lra|lra|lra|now apply CR|apply M3; assumption|apply M3; assumption]. }
  set (rx := tx * w + (j * tz - k * ty)). set (ry := ty * w + (k * tx - i * tz)). set (rz := tz * w + (i * ty - j * tx)).
  assert (RR : (rx + v1) * (rx + v1) + (ry + v2) * (ry + v2) + (rz + v3) * (rz + v3) = 1).
  { rewrite <- U. unfold rx, ry, rz, tx, ty, tz, cx, cy, cz. ring [H']. }
  pose proof (Rle_0_sqr (rx + v1)) as W1. pose proof (Rle_0_sqr (ry + v2)) as W2. pose proof (Rle_0_sqr (rz + v3)) as W3. unfold Rsqr in W1, W2, W3.
  assert (G1 : Rabs (rx + v1) <= 1) by (apply sq_abs; lra). assert (G2 : Rabs (ry + v2) <= 1) by (apply sq_abs; lra). assert (G3 : Rabs (rz + v3) <= 1) by (apply sq_abs; lra).
  assert (L : forall r v, Rabs (r + v) <= 1 -> Rabs v <= 1 -> Rabs r <= 2). { intros r v H1 H2. apply Rabs_le_inv in H1, H2. apply Rabs_le. lra. }
  assert (FIN : forall g ga c v fv a w', Rabs (a * w' + c + v) <= 1 -> Rabs v <= 1 -> Rabs a <= 2 -> Rabs w' <= 1 -> approx 57.2 g a -> approx 12.1 fw w' -> approx 169.4 ga c -> approx 0 fv v ->
    forall r, r = a * w' + c + v -> approx 257 (fadd (fadd (fmul g fw) ga) fv) r).
  { intros g ga c v fv a w' H1 H2 H3 H4 H5 H6 H7 H8 r ->. eapply approx_weaken; [|apply (approx_add 255.2 0)]; [lra|lra|lra|exact H1| |exact H8].
    eapply approx_weaken; [|apply (approx_add2 83.6 169.4)]; [lra|lra|lra|eapply L; eassumption|apply M4; assumption|assumption]. }
  split; [|split].
  - apply (FIN gx _ (j * tz - k * ty) v1 f1' tx w); try assumption; [|unfold tx, ty, tz, cx, cy, cz; ring [H']]. apply M5; assumption || lra.
  - apply (FIN gy _ (k * tx - i * tz) v2 f2' ty w); try assumption; [|unfold tx, ty, tz, cx, cy, cz; ring [H']]. apply M5; assumption || lra.
  - apply (FIN gz _ (i * ty - j * tx) v3 f3' tz w); try assumption; [|unfold tx, ty, tz, cx, cy, cz; ring [H']]. apply M5; assumption || lra.
Qed.

(** Zeros, of either sign. *)
Definition zero (x : f32) : Prop := is_finite x = true /\ B2R x = 0.
Lemma rnd_0 : rnd 0 = 0.
Proof. apply round_0. auto with typeclass_instances. Qed.
Lemma zero_mul : forall x y, is_finite x = true -> zero y -> zero (fmul x y).
Proof.
  intros x y F [G E]. destruct (fmul_fin x y F G) as [K L]; rewrite E, Rmult_0_r, rnd_0 in *; [rewrite Rabs_R0; apply bpow_gt_0|]. now split.
Qed.
Lemma zero_mul_l : forall x y, is_finite x = true -> zero y -> zero (fmul y x).
Proof.
  intros x y F [G E]. destruct (fmul_fin y x G F) as [K L]; rewrite E, Rmult_0_l, rnd_0 in *; [rewrite Rabs_R0; apply bpow_gt_0|]. now split.
Qed.
Lemma zero_sub : forall x y, zero x -> zero y -> zero (fsub x y).
Proof.
  intros x y [F D] [G E]. destruct (fsub_fin x y F G) as [K L]; rewrite D, E, Rminus_0_r, rnd_0 in *; [rewrite Rabs_R0; apply bpow_gt_0|]. now split.
Qed.
Lemma zero_add : forall x y, zero x -> is_finite y = true -> is_finite (fadd x y) = true /\ B2R (fadd x y) = B2R y.
Proof.
  intros x y [F D] G. assert (R : rnd (B2R y) = B2R y) by (apply round_generic; [auto with typeclass_instances|apply generic_format_B2R]).
  destruct (fadd_fin x y F G) as [K L]; rewrite D, Rplus_0_l, R in *; [apply abs_B2R_lt_emax|]. now split.
Qed.
Lemma zero_rotate : forall fw fi fj fk, is_finite fw = true -> is_finite fi = true -> is_finite fj = true -> is_finite fk = true ->
  let '(x, y, z) := rotate F32A (fw, fi, fj, fk) (f0, f0, f0) in zero x /\ zero y /\ zero z.
Proof.
  intros fw fi fj fk Fw Fi Fj Fk. unfold rotate, added, scaled, cross. cbn [F32A tmul tadd tsub t_of_isize].
  assert (Z0 : zero f0) by (split; reflexivity). assert (F2 : is_finite (f32_of_Z 2) = true) by reflexivity.
  assert (A : forall x y, zero x -> zero y -> zero (fadd x y)). { intros x y H [G E]. destruct (zero_add x y H G) as [K L]. split; [assumption|]. congruence. }
  split; [|split]; repeat first [apply A | apply zero_sub | assumption | apply zero_mul; [assumption|] | apply zero_mul_l; [assumption|]].
Qed.

Lemma start_exact : forall fw fi fj fk t, is_finite fw = true -> is_finite fi = true -> is_finite fj = true -> is_finite fk = true -> finite3 t ->
  finite3 (transform_point F32A t (fw, fi, fj, fk) (f0, f0, f0)) /\ real3 (transform_point F32A t (fw, fi, fj, fk) (f0, f0, f0)) = real3 t.
Proof.
  intros fw fi fj fk [[t1 t2] t3] Fw Fi Fj Fk (F1 & F2 & F3). unfold transform_point. pose proof (zero_rotate fw fi fj fk Fw Fi Fj Fk) as Z.
  destruct (rotate F32A (fw, fi, fj, fk) (f0, f0, f0)) as [[x y] z]. destruct Z as (Z1 & Z2 & Z3). unfold added, finite3, real3, real, finite in *. cbn [F32A tadd].
  destruct (zero_add x t1 Z1 F1) as [G1 ->]. destruct (zero_add y t2 Z2 F2) as [G2 ->]. destruct (zero_add z t3 Z3 F3) as [G3 ->]. auto.
Qed.

Lemma end_near : forall D x t a, 0 <= D <= bp 40 -> is_finite t = true -> Rabs (B2R t) <= D -> Rabs a <= 1 -> approx 257 x a ->
  is_finite (fadd t x) = true /\ Rabs (B2R (fadd t x) - (B2R t + a)) <= bp (-15) + bp (-24) * D.
Proof.
  intros D x t a HD Ft Ht Ha [Fx Hx]. assert (U : u32 = / 16777216) by reflexivity. assert (U24 : bp (-24) = u32) by apply u32_bp.
  assert (S : Rabs (B2R t + B2R x) <= D + 1.001).
  { eapply Rle_trans. apply Rabs_triang. assert (Rabs (B2R x) <= 1.001); [|lra]. replace (B2R x) with ((B2R x - a) + a) by ring. eapply Rle_trans. apply Rabs_triang. rewrite U in *. lra. }
  destruct (fadd_fin t x Ft Fx) as [F E].
  { apply rnd_abs_lt_128. apply Rle_trans with (bp 41); [|apply bpow_le; lia]. change (bp 41) with (bp 1 * bp 40). change (bp 1) with 2. assert (2 <= bp 40) by (change 2 with (bp 1); apply bpow_le; lia). lra. }
  split; [assumption|]. rewrite E. pose proof (rnd_err (B2R t + B2R x)) as R. pose proof bp_m150_u as B.
  replace (rnd (B2R t + B2R x) - (B2R t + a)) with ((rnd (B2R t + B2R x) - (B2R t + B2R x)) + (B2R x - a)) by ring.
  eapply Rle_trans. apply Rabs_triang. change (bp (-15)) with (/ 32768). rewrite U24, U in *. nra.
Qed.

Lemma marker_near : forall s c roll pitch yaw t D, trig_accurate s c -> angle roll -> angle pitch -> angle yaw -> 0 <= D <= bp 40 ->
  (let '(t1, t2, t3) := t in Forall (sized D) [t1; t2; t3]) ->
  marks (bp (-15) + bp (-24) * D) (real3 t) (real roll) (real pitch) (real yaw) (frame_marker F32A t (euler_quaternion F32A s c roll pitch yaw) f1).
Proof.
  intros s c roll pitch yaw t D HT Hr Hp Hy HD St.
  destruct (quat_near s c roll pitch yaw HT Hr Hp Hy) as (fw & fi & fj & fk & w & i & j & k & -> & (Aw & Ai & Aj & Ak) & N & ER).
  assert (Ft : finite3 t). { destruct t as [[t1 t2] t3]. inversion_clear St as [|? ? [S1 _] St']. inversion_clear St' as [|? ? [S2 _] St'']. inversion_clear St'' as [|? ? [S3 _] _]. now split. }
  pose proof (start_exact fw fi fj fk t (proj1 Aw) (proj1 Ai) (proj1 Aj) (proj1 Ak) Ft) as G.
  unfold marks, frame_marker. cbn [F32A tzero tone].
  match goal with |- context [mkLine _ ?x _ _] => change (finite3 x /\ real3 x = real3 t) in G; set (o := x) in *; clearbody o end. destruct G as [G1 G2].
  assert (K : forall f v, near_vec 0 f v -> dot3 v v = 1 -> finite3 (added F32A o (rotate F32A (fw, fi, fj, fk) f)) /\
    near3 (bp (-15) + bp (-24) * D) (real3 (added F32A o (rotate F32A (fw, fi, fj, fk) f))) (plus3 (real3 t) (turned (real roll) (real pitch) (real yaw) v))).
  { intros f v Hf Hv. assert (Q : near_vec 257 (rotate F32A (fw, fi, fj, fk) f) (turned (B2R roll) (B2R pitch) (B2R yaw) v)).
    { rewrite turned_rows, ER. exact (rotate_near fw fi fj fk w i j k f v N Aw Ai Aj Ak Hf Hv). }
    pose proof (turned_dot (real roll) (real pitch) (real yaw) v v) as TD. rewrite Hv in TD. unfold real in TD at 1 2 3.
    change (turned (real roll) (real pitch) (real yaw) v) with (turned (B2R roll) (B2R pitch) (B2R yaw) v) in *.
    destruct (turned (B2R roll) (B2R pitch) (B2R yaw) v) as [[a b] e]. destruct (rotate F32A (fw, fi, fj, fk) f) as [[x y] z]. destruct Q as (Q1 & Q2 & Q3).
    unfold dot3 in TD. pose proof (Rle_0_sqr a). pose proof (Rle_0_sqr b). pose proof (Rle_0_sqr e). unfold Rsqr in *.
    assert (Ba : Rabs a <= 1) by (apply sq_abs; lra). assert (Bb : Rabs b <= 1) by (apply sq_abs; lra). assert (Be : Rabs e <= 1) by (apply sq_abs; lra).
    destruct o as [[o1 o2] o3]. destruct t as [[t1 t2] t3]. inversion_clear St as [|? ? [_ S1] St']. inversion_clear St' as [|? ? [_ S2] St'']. inversion_clear St'' as [|? ? [_ S3] _].
    unfold finite3, real3, real, finite in *. injection G2 as E1 E2 E3. destruct G1 as (I1 & I2 & I3). rewrite <- E1 in S1. rewrite <- E2 in S2. rewrite <- E3 in S3. rewrite <- E1, <- E2, <- E3.
    unfold added, near3, plus3. cbn [F32A tadd].
    destruct (end_near D x o1 a HD I1 S1 Ba Q1) as [J1 J1']. destruct (end_near D y o2 b HD I2 S2 Bb Q2) as [J2 J2']. destruct (end_near D z o3 e HD I3 S3 Be Q3) as [J3 J3']. auto. }
  assert (A0 : approx 0 f0 0). { split; [reflexivity|]. change (B2R f0) with 0. rewrite Rminus_eq_0, Rabs_R0. lra. }
  assert (A1 : approx 0 f1 1). { split; [reflexivity|]. rewrite f1_real, Rminus_eq_0, Rabs_R0. lra. }
  assert (C0 : real f0 = 0) by reflexivity. assert (C1 : real f1 = 1) by apply f1_real.
  assert (LINE : forall f v cl, near_vec 0 f v -> dot3 v v = 1 -> real3 cl = v ->
    drawn_line (bp (-15) + bp (-24) * D) (real3 t) (turned (real roll) (real pitch) (real yaw) v) v (mkLine F32A o (added F32A o (rotate F32A (fw, fi, fj, fk) f)) cl)).
  { intros f v cl Hf Hv Hc. destruct (K f v Hf Hv) as [K1 K2]. unfold drawn_line. cbn [line_from line_to line_colour]. auto. }
  constructor; [|constructor; [|constructor; [|constructor]]]; apply LINE; try (split; [assumption|split; assumption]); try (unfold dot3; ring); unfold real3; rewrite C0, C1; reflexivity.
Qed.

(** ** Which pose *)
Lemma main_poses : forall s lookup args path rec vs ms poses, viz_main s lookup args = Ret (Some rec) -> nth_error args 1 = Some path -> drive s (lookup path) vs ms ->
  snd (oxt_read_from_dir (sys_env s) (oxts_data (lookup path)) false) = Ret (IoOk poses) -> poses = frames s vs.
Proof.
  intros s lookup args path rec vs ms poses E P (_ & _ & _ & (n1 & O1 & F1) & _) R. rewrite (oxts_read s _ _ _ O1 F1) in R. now injection R as <-.
Qed.

Lemma picture_shows : forall s lookup args path rec vs ms poses d lm r t tr st D, viz_main s lookup args = Ret (Some rec) -> nth_error args 1 = Some path -> drive s (lookup path) vs ms ->
  vs <> [] -> snd (oxt_read_from_dir (sys_env s) (oxts_data (lookup path)) false) = Ret (IoOk poses) ->
  trig_accurate (sys_sin s) (sys_cos s) -> 0 <= D <= bp 40 ->
  (forall k v, nth_error vs k = Some v -> angle (oxt_roll v) /\ angle (oxt_pitch v) /\ angle (oxt_yaw v) /\ Forall (sized D) (coords (position s vs k v))) ->
  reaches rec d lm r t tr st -> render st = RDraw ->
  exists v points lines, nth_error vs (length (started tr) mod length vs) = Some v /\ picture poses st = Ret (points, lines) /\
    Forall2 (fun e q => fst q = snd e /\ snd q = (f0, f32_lit 6 10, f32_lit 8 10)) (tracked st) points /\
    marks (bp (-15) + bp (-24) * D) (real3 (position s vs (length (started tr) mod length vs) v)) (real (oxt_roll v)) (real (oxt_pitch v)) (real (oxt_yaw v)) lines.
Proof.
  intros s lookup args path rec vs ms poses d lm r t tr st D E P Dr N RP A HD M R W. pose proof (main_poses _ _ _ _ _ _ _ _ E P Dr RP) as ->.
  pose proof (main_recorded _ _ _ _ _ _ _ E P Dr N) as RC. destruct (main_frames _ _ _ _ _ _ _ E P Dr) as (L1 & L2 & _).
  destruct (cyclic_inv _ _ _ _ _ _ _ RC R) as (C & _). rewrite W, L2 in C. cbn [spawned_now] in C. rewrite Nat.sub_0_r in C.
  assert (B : (length (started tr) mod length vs < length vs)%nat) by (apply Nat.mod_upper_bound; destruct vs; [congruence|discriminate]).
  destruct (nth_error vs (length (started tr) mod length vs)) as [v|] eqn:Ev; [|apply nth_error_None in Ev; lia].
  destruct (M _ _ Ev) as (A1 & A2 & A3 & S). do 3 eexists. split; [reflexivity|]. unfold picture. rewrite C, (frames_nth s vs _ v Ev). split; [reflexivity|]. split.
  - induction (tracked st) as [|e l IH]; constructor; [now split|exact IH].
  - cbn [fst snd]. apply marker_near; try assumption. destruct (position s vs _ v) as [[t1 t2] t3]. exact S.
Qed.

Lemma picture_next : forall rec poses d lm r t tr st tr' st' o c, recorded rec -> origins rec = map pose_origin poses -> Forall pose_finite poses ->
  reaches rec d lm r t tr st -> render st = RDraw -> run rec st tr' st' -> nth_error (started tr') 0 = Some (o, c) ->
  exists points lines, picture poses st = Ret (points, lines) /\ length lines = 3%nat /\
    Forall (fun l => finite3 (line_from F32A l) /\ real3 (line_from F32A l) = triple o) lines.
Proof.
  intros rec poses d lm r t tr st tr' st' o c RC O F R W R' St.
  destruct (cyclic_inv _ _ _ _ _ _ _ RC R) as (C & _). rewrite W in C. cbn [spawned_now] in C. rewrite Nat.sub_0_r in C.
  assert (R2 : reaches rec d lm r t (tr ++ tr') st'). { destruct R as (o0 & E0 & R). exists o0. split; [assumption|]. eapply run_app; eassumption. }
  assert (St2 : nth_error (started (tr ++ tr')) (length (started tr)) = Some (o, c)). { rewrite started_app, nth_error_app2, Nat.sub_diag by lia. exact St. }
  destruct (cyclic_run _ _ _ _ _ _ _ _ _ _ RC R2 St2) as [N _]. rewrite <- C, O, nth_error_map in N. unfold picture.
  destruct (nth_error poses (index st)) as [[tv q]|] eqn:Ep; [|discriminate N]. injection N as <-.
  rewrite Forall_forall in F. specialize (F _ (nth_error_In _ _ Ep)). destruct q as [[[fw fi] fj] fk]. destruct F as (Ft & Fw & Fi & Fj & Fk).
  do 2 eexists. split; [reflexivity|]. split; [reflexivity|]. cbn [fst snd].
  assert (T : real3 tv = triple (pose_origin (tv, (fw, fi, fj, fk)))) by (destruct tv as [[x y] z]; reflexivity).
  pose proof (start_exact fw fi fj fk tv Fw Fi Fj Fk Ft) as S. rewrite T in S. constructor; [exact S|]. constructor; [exact S|]. constructor; [exact S|constructor].
Qed.
