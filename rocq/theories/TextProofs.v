(** From the text of the files to the display. *)
From Coq Require Import ZArith List Bool Reals Lra Lia Strings.Byte.
From Flocq Require Import Core BinarySingleNaN.
From Verif Require Import Base F32 F64 Arith Geom NdArray GridMap NoiseModel Kitti Spec SpecMap SpecNoise SpecKitti FloatFacts RoundError NdProofs MathProofs GpsProofs Viz SpecViz Pose SpecPose SpecMain PoseProofs StartProofs SceneProofs Number SpecNumber NumberProofs NumberRoundProofs NumberReadProofs SpecText.
Open Scope R_scope.

(** ** Numbers *)
Lemma reads32 : forall s v, field_value s v -> Rabs v <= 7 ->
  exists x : f32, parse_float 24 128 s = Some x /\ finite x /\ Rabs (real x - v) <= 15 * bp (-25).
Proof.
  intros s v (neg & a & H & ->) B. destruct (parse_reads 24 128 s neg a H) as (x & P & R). exists x. split; [exact P|]. assert (A0 := text_nonneg s neg a H).
  assert (Ba : a <= 7).
  { destruct neg; cbn [signed] in B; [rewrite Rabs_Ropp in B|]; now rewrite (Rabs_pos_eq a A0) in B. }
  assert (L : a < bpow radix2 128 - bpow radix2 (128 - 24 - 1)).
  { apply Rle_lt_trans with (1 := Ba). change (128 - 24 - 1)%Z with 103%Z. assert (E : bpow radix2 128 = bpow radix2 25 * bpow radix2 103) by (rewrite <- bpow_plus; reflexivity).
    assert (4 <= bpow radix2 25) by (apply (bpow_le radix2 2); lia). assert (8 <= bpow radix2 103) by (apply (bpow_le radix2 3); lia). nra. }
  assert (F : is_finite x = true) by (destruct R as (_ & _ & R & _); exact (proj1 (R L))).
  split; [exact F|]. unfold real. rewrite (rounds_signed 24 128 x neg a R F A0). eapply Rle_trans; [apply rnd_err|].
  assert (E : u32 = 2 * bp (-25)) by (unfold u32; change 2 with (bp 1); rewrite <- bpow_plus; reflexivity).
  assert (T : bp (-150) <= bp (-25)) by (apply bpow_le; lia). rewrite E. pose proof (bpow_gt_0 radix2 (-25)). nra.
Qed.
Lemma reads64 : forall s v, field_value s v -> Rabs v <= 10000 ->
  exists x : f64, parse_float 53 1024 s = Some x /\ finite64 x /\ Rabs (real64 x - v) <= bp (-53) * Rabs v + bp (-1000).
Proof.
  intros s v H B. destruct (field_reads s v H) as (_ & x & P & A). exists x. split; [exact P|]. apply A.
  apply Rle_trans with (1 := B). apply Rle_trans with (bp 20); [change (bp 20) with 1048576; lra|apply bpow_le; lia].
Qed.

(** ** Places *)
Lemma east_accurate : forall c (p o : gps) lat lat0 lon lon0, cos_accurate c ->
  at_most 90 (fst (fst p)) -> at_most 90 (fst (fst o)) -> at_most 360 (snd (fst p)) -> at_most 360 (snd (fst o)) ->
  Rabs (real64 (fst (fst p)) - lat) <= bp (-46) -> Rabs (real64 (fst (fst o)) - lat0) <= bp (-46) ->
  Rabs (real64 (snd (fst p)) - lon) <= bp (-45) -> Rabs (real64 (snd (fst o)) - lon0) <= bp (-45) ->
  Rabs ((lat - lat0) * 40008000 / 360) <= 199 -> Rabs ((lon - lon0) * 40075160 * cos ((lat - lat0) * PI / 180) / 360) <= 199 ->
  finite (fst (fst (gps_to_meters c p o))) /\
  Rabs (real (fst (fst (gps_to_meters c p o))) - (lon - lon0) * 40075160 * cos ((lat - lat0) * PI / 180) / 360) <= bp (-14).
Proof.
  intros c p o lat lat0 lon lon0 C A1 A2 A3 A4 D1 D2 D3 D4 N E. destruct (east c p o C A1 A2 A3 A4) as [F X]. split; [exact F|]. clear F A1 A2 A3 A4 C.
  cbv zeta in X. set (x := real (fst (fst (gps_to_meters c p o)))) in *. clearbody x.
  set (a := real64 (fst (fst p))) in *. set (a0 := real64 (fst (fst o))) in *. set (l := real64 (snd (fst p))) in *. set (l0 := real64 (snd (fst o))) in *. clearbody a a0 l l0.
  assert (T46 : bp (-46) <= / 10 ^ 13) by (change (bp (-46)) with (/ 70368744177664); lra).
  assert (T45 : bp (-45) <= 3 / 10 ^ 14) by (change (bp (-45)) with (/ 35184372088832); lra).
  assert (T149 : bp (-149) <= / 10 ^ 13) by (apply Rle_trans with (bp (-46)); [apply bpow_le; lia|assumption]).
  assert (T23 : bp (-23) = / 8388608) by reflexivity. assert (T14 : bp (-14) = / 16384) by reflexivity. rewrite T23 in X. rewrite T14.
  pose proof PI_bounds as PB.
  apply Rabs_le_inv in D1, D2, D3, D4. 
  assert (DL : Rabs (lat - lat0) <= / 500).
  { apply Rabs_le_inv in N. apply Rabs_le. lra. }
  apply Rabs_le_inv in DL.
  assert (C1 : Rabs (cos ((lat - lat0) * PI / 180) - 1) <= / 1000).
  { rewrite <- cos_0. eapply Rle_trans; [apply cos_lipschitz|]. rewrite Rminus_0_r. apply Rabs_le. nra. }
  assert (C2 : Rabs (cos ((a - a0) * PI / 180) - cos ((lat - lat0) * PI / 180)) <= / 10 ^ 13).
  { eapply Rle_trans; [apply cos_lipschitz|]. apply Rabs_le. nra. }
  set (k := cos ((lat - lat0) * PI / 180)) in *. set (k' := cos ((a - a0) * PI / 180)) in *. clearbody k k'.
  apply Rabs_le_inv in C1, C2, E.
  assert (DO : Rabs (lon - lon0) <= / 500).
  { assert (Q : Rabs ((lon - lon0) * k) <= 199 * 360 / 40075160) by (apply Rabs_le; lra).
    rewrite Rabs_mult, (Rabs_pos_eq k) in Q by lra. pose proof (Rabs_pos (lon - lon0)). nra. }
  set (dl := lon - lon0) in *. set (dl' := l - l0) in *.
  assert (DD : Rabs (dl' - dl) <= / 10 ^ 13) by (apply Rabs_le; unfold dl, dl'; lra).
  assert (K : Rabs (dl' * k' - dl * k) <= 2 / 10 ^ 13).
  { replace (dl' * k' - dl * k) with ((dl' - dl) * k' + dl * (k' - k)) by ring. eapply Rle_trans; [apply Rabs_triang|]. rewrite !Rabs_mult.
    assert (Rabs k' <= 1.1) by (apply Rabs_le; lra). assert (Rabs (k' - k) <= / 10 ^ 13) by (apply Rabs_le; lra).
    pose proof (Rabs_pos (dl' - dl)). pose proof (Rabs_pos dl). pose proof (Rabs_pos k'). pose proof (Rabs_pos (k' - k)). nra. }
  assert (Adl : Rabs dl' <= / 400) by (pose proof (abs_chain _ _ _ DD); lra).
  assert (X' : Rabs (x - dl' * 40075160 * k' / 360) <= / 25000) by (eapply Rle_trans; [exact X|]; lra).
  apply Rabs_le_inv in X', K. apply Rabs_le. unfold Rdiv in *. nra.
Qed.

(** ** Directions *)
Definition small (e : R) (a b : R) : Prop := Rabs a <= 1 /\ Rabs b <= 1 /\ Rabs (a - b) <= e.
Lemma small_sin : forall e a b, Rabs (a - b) <= e -> small e (sin a) (sin b).
Proof.
  intros e a b H. split; [apply Rabs_le; apply SIN_bound|]. split; [apply Rabs_le; apply SIN_bound|].
  rewrite <- (cos_shift a), <- (cos_shift b). eapply Rle_trans; [apply cos_lipschitz|]. replace (PI / 2 - a - (PI / 2 - b)) with (- (a - b)) by ring. now rewrite Rabs_Ropp.
Qed.
Lemma small_cos : forall e a b, Rabs (a - b) <= e -> small e (cos a) (cos b).
Proof. intros e a b H. split; [apply Rabs_le; apply COS_bound|]. split; [apply Rabs_le; apply COS_bound|]. eapply Rle_trans; [apply cos_lipschitz|exact H]. Qed.
Lemma small_mult : forall e f a b c d, small e a b -> small f c d -> small (e + f) (a * c) (b * d).
Proof.
  intros e f a b c d (A & B & D) (A' & B' & D'). unfold small. rewrite !Rabs_mult. pose proof (Rabs_pos a). pose proof (Rabs_pos b). pose proof (Rabs_pos c). pose proof (Rabs_pos d). split; [nra|]. split; [nra|].
  replace (a * c - b * d) with ((a - b) * c + b * (c - d)) by ring. eapply Rle_trans; [apply Rabs_triang|]. rewrite !Rabs_mult. pose proof (Rabs_pos (a - b)). pose proof (Rabs_pos (c - d)). nra.
Qed.
Lemma small_weaken : forall e f a b, small e a b -> e <= f -> Rabs (a - b) <= f.
Proof. intros e f a b (_ & _ & H) L. lra. Qed.
Lemma add_close : forall e f a b c d, Rabs (a - b) <= e -> Rabs (c - d) <= f -> Rabs (a + c - (b + d)) <= e + f.
Proof. intros e f a b c d H H'. replace (a + c - (b + d)) with ((a - b) + (c - d)) by ring. eapply Rle_trans; [apply Rabs_triang|]. lra. Qed.
Lemma sub_close : forall e f a b c d, Rabs (a - b) <= e -> Rabs (c - d) <= f -> Rabs (a - c - (b - d)) <= e + f.
Proof. intros e f a b c d H H'. replace (a - c - (b - d)) with ((a - b) + - (c - d)) by ring. eapply Rle_trans; [apply Rabs_triang|]. rewrite Rabs_Ropp. lra. Qed.
Lemma opp_close : forall e a b, Rabs (a - b) <= e -> Rabs (- a - - b) <= e.
Proof. intros e a b H. replace (- a - - b) with (- (a - b)) by ring. now rewrite Rabs_Ropp. Qed.
Lemma row_close : forall e a b c a' b' c' x y z, Rabs (a' - a) <= e -> Rabs (b' - b) <= e -> Rabs (c' - c) <= e -> x * x + y * y + z * z <= 100 * 100 ->
  Rabs (a' * x + b' * y + c' * z - (a * x + b * y + c * z)) <= 300 * e.
Proof.
  intros e a b c a' b' c' x y z A B C N. replace (a' * x + b' * y + c' * z - (a * x + b * y + c * z)) with ((a' - a) * x + ((b' - b) * y + (c' - c) * z)) by ring.
  assert (K : forall w, w * w <= 100 * 100 -> Rabs w <= 100) by (intros w W; apply Rabs_le; nra).
  assert (X : Rabs x <= 100) by (apply K; pose proof (Rle_0_sqr y); pose proof (Rle_0_sqr z); unfold Rsqr in *; lra).
  assert (Y : Rabs y <= 100) by (apply K; pose proof (Rle_0_sqr x); pose proof (Rle_0_sqr z); unfold Rsqr in *; lra).
  assert (Z : Rabs z <= 100) by (apply K; pose proof (Rle_0_sqr y); pose proof (Rle_0_sqr x); unfold Rsqr in *; lra).
  clear N K. eapply Rle_trans; [apply Rabs_triang|]. pose proof (Rabs_triang ((b' - b) * y) ((c' - c) * z)) as T. rewrite !Rabs_mult in *.
  assert (M : forall u v, 0 <= u <= e -> 0 <= v <= 100 -> u * v <= e * 100) by (intros u v U V; apply Rmult_le_compat; lra).
  pose proof (M _ _ (conj (Rabs_pos _) A) (conj (Rabs_pos _) X)). pose proof (M _ _ (conj (Rabs_pos _) B) (conj (Rabs_pos _) Y)). pose proof (M _ _ (conj (Rabs_pos _) C) (conj (Rabs_pos _) Z)). lra.
Qed.
Lemma turned_close : forall e r p y r' p' y' v, Rabs (r' - r) <= e -> Rabs (p' - p) <= e -> Rabs (y' - y) <= e -> dot3 v v <= 100 * 100 ->
  near3 (1500 * e) (turned r' p' y' v) (turned r p y v).
Proof.
  intros e r p y r' p' y' [[a b] c] R P Y N. rewrite !turned_rows. unfold euler_rows, apply3, dot3 in *. unfold near3.
  pose proof (small_sin _ _ _ R) as SR. pose proof (small_cos _ _ _ R) as CR. pose proof (small_sin _ _ _ P) as SP. pose proof (small_cos _ _ _ P) as CP. pose proof (small_sin _ _ _ Y) as SY. pose proof (small_cos _ _ _ Y) as CY.
  assert (E0 : 0 <= e) by (pose proof (Rabs_pos (r' - r)); lra).
  assert (T2 : forall u v w z, small e u v -> small e w z -> Rabs (u * w - v * z) <= 2 * e) by (intros u v w z U V; apply (small_weaken (e + e)); [now apply small_mult|lra]).
  assert (T3 : forall u v w z s t, small e u v -> small e w z -> small e s t -> Rabs (u * w * s - v * z * t) <= 3 * e) by (intros u v w z s t U V W; apply (small_weaken (e + e + e)); [apply small_mult; [now apply small_mult|assumption]|lra]).
  replace (1500 * e) with (300 * (5 * e)) by ring.
  assert (W : forall k x y, Rabs (x - y) <= k -> k <= 5 * e -> Rabs (x - y) <= 5 * e) by (intros; lra).
  split; [|split]; apply row_close; try exact N.
  - apply (W (2 * e)); [now apply T2|lra].
  - apply (W (3 * e + 2 * e)); [apply sub_close; [now apply T3|now apply T2]|lra].
  - apply (W (3 * e + 2 * e)); [apply add_close; [now apply T3|now apply T2]|lra].
  - apply (W (2 * e)); [now apply T2|lra].
  - apply (W (3 * e + 2 * e)); [apply add_close; [now apply T3|now apply T2]|lra].
  - apply (W (3 * e + 2 * e)); [apply sub_close; [now apply T3|now apply T2]|lra].
  - apply (W e); [apply opp_close; apply SP|lra].
  - apply (W (2 * e)); [now apply T2|lra].
  - apply (W (2 * e)); [now apply T2|lra].
Qed.

(** ** Records *)
Definition agrees (x : said) (v : oxt) : Prop :=
  (at_most 90 (oxt_lat v) /\ Rabs (real64 (oxt_lat v) - lat_said x) <= bp (-46)) /\
  (at_most 360 (oxt_lon v) /\ Rabs (real64 (oxt_lon v) - lon_said x) <= bp (-45)) /\
  (at_most (2 ^ 80) (oxt_alt v) /\ Rabs (real64 (oxt_alt v) - alt_said x) <= bp (-32)) /\
  (finite (oxt_roll v) /\ Rabs (real (oxt_roll v) - roll_said x) <= 15 * bp (-25)) /\
  (finite (oxt_pitch v) /\ Rabs (real (oxt_pitch v) - pitch_said x) <= 15 * bp (-25)) /\
  (finite (oxt_yaw v) /\ Rabs (real (oxt_yaw v) - yaw_said x) <= 15 * bp (-25)).
Definition on_earth (x : said) : Prop :=
  (Rabs (lat_said x) <= 89 /\ Rabs (lon_said x) <= 180 /\ Rabs (alt_said x) <= 10000) /\
  (Rabs (roll_said x) <= 7 /\ Rabs (pitch_said x) <= 7 /\ Rabs (yaw_said x) <= 7).
Lemma pose_reads : forall s d n x, std_parsers s -> pose_text d n x -> on_earth x -> exists v, oxt_file s d n v /\ agrees x v.
Proof.
  intros s d n x [P64 P32] (b & t0 & t1 & t2 & t3 & t4 & t5 & more & Cb & T & F & V0 & V1 & V2 & V3 & V4 & V5) ((Bl & Bo & Ba) & (Br & Bp & By)).
  destruct (reads64 _ _ V0 ltac:(lra)) as (x0 & R0 & F0 & A0). destruct (reads64 _ _ V1 ltac:(lra)) as (x1 & R1 & F1 & A1). destruct (reads64 _ _ V2 ltac:(lra)) as (x2 & R2 & F2 & A2).
  destruct (reads32 _ _ V3 Br) as (x3 & R3 & A3). destruct (reads32 _ _ V4 Bp) as (x4 & R4 & A4). destruct (reads32 _ _ V5 By) as (x5 & R5 & A5).
  exists (mkOxt x0 x1 x2 x3 x4 x5). split.
  - exists b, (t0 :: t1 :: t2 :: t3 :: t4 :: t5 :: more). rewrite P64, P32. split; [exact Cb|]. split; [exact T|]. split; [exact F|]. split; [cbn [length]; lia|]. auto 10.
  - unfold agrees. cbn [oxt_lat oxt_lon oxt_alt oxt_roll oxt_pitch oxt_yaw].
    assert (Tiny : bp (-1000) <= bp (-53)) by (apply bpow_le; lia).
    assert (E46 : bp (-46) = 128 * bp (-53)) by (change 128 with (bp 7); rewrite <- bpow_plus; reflexivity).
    assert (E45 : bp (-45) = 256 * bp (-53)) by (change 256 with (bp 8); rewrite <- bpow_plus; reflexivity).
    assert (E32 : bp (-32) = 2097152 * bp (-53)) by (change 2097152 with (bp 21); rewrite <- bpow_plus; reflexivity).
    assert (S32 : bp (-32) <= 1) by (apply (bpow_le radix2 (-32) 0); lia). pose proof (bpow_gt_0 radix2 (-53)) as P53.
    assert (D0 : Rabs (real64 x0 - lat_said x) <= bp (-46)) by nra. assert (D1 : Rabs (real64 x1 - lon_said x) <= bp (-45)) by nra. assert (D2 : Rabs (real64 x2 - alt_said x) <= bp (-32)) by nra.
    pose proof (abs_chain _ _ _ D0). pose proof (abs_chain _ _ _ D1). pose proof (abs_chain _ _ _ D2).
    split; [split; [split; [assumption|]|assumption]; lra|]. split; [split; [split; [assumption|]|assumption]; lra|]. split; [|auto].
    split; [split; [assumption|]|assumption]. apply Rle_trans with 10001; [lra|]. apply IZR_le. lia.
Qed.

(** ** Scenes *)
Definition within_199 (x0 x : said) : Prop := let '(e, n, u) := metres x0 x in Rabs e <= 199 /\ Rabs n <= 199 /\ Rabs u <= 199.
Lemma metres_self : forall x, metres x x = (0, 0, 0).
Proof. intro x. unfold metres. repeat (apply f_equal2; [|]); unfold Rdiv; ring. Qed.
Lemma position_close : forall s vs k x0 x v0 v, cos_accurate (sys_cos64 s) -> nth_error vs 0 = Some v0 -> nth_error vs k = Some v -> agrees x0 v0 -> agrees x v ->
  (k = 0%nat -> x = x0) -> within_199 x0 x ->
  let '(a, b, c) := position s vs k v in (finite a /\ finite b /\ finite c) /\ near3 (bp (-14)) (real a, real b, real c) (metres x0 x).
Proof.
  intros s vs k x0 x v0 v C H0 Hk A0 A X0 W. assert (P14 : 0 <= bp (-14)) by apply bpow_ge_0. destruct vs as [|v0' vs]; [discriminate H0|]. cbn [nth_error] in H0. injection H0 as ->.
  destruct k as [|k].
  - rewrite (X0 eq_refl). cbn [position]. rewrite metres_self. split; [now repeat split|]. unfold near3. change (real f0) with 0. rewrite Rminus_0_r, Rabs_R0. auto.
  - unfold position. unfold within_199, metres in W. destruct W as (We & Wn & Wu). destruct A0 as ((A01 & A02) & (A03 & A04) & (A05 & A06) & _). destruct A as ((A1 & A2) & (A3 & A4) & (A5 & A6) & _).
    destruct (east_accurate (sys_cos64 s) (oxt_gps v) (oxt_gps v0) (lat_said x) (lat_said x0) (lon_said x) (lon_said x0) C A1 A01 A3 A03 A2 A02 A4 A04 Wn We) as [FE E].
    assert (at_1000 : forall z : f64, at_most 90 z -> at_most 1000 z) by (intros z [Fz Bz]; split; [exact Fz|lra]).
    destruct (north_accurate (sys_cos64 s) (oxt_gps v) (oxt_gps v0) (lat_said x) (lat_said x0) (at_1000 _ A1) (at_1000 _ A01) A2 A02) as [FN N].
    destruct (up_accurate (sys_cos64 s) (oxt_gps v) (oxt_gps v0) (alt_said x) (alt_said x0) A5 A05 A6 A06) as [FU U].
    destruct (gps_to_meters (sys_cos64 s) (oxt_gps v) (oxt_gps v0)) as [[a b] c]. cbn [fst snd] in *. split; [auto|]. unfold near3, metres.
    assert (T27 : bp (-27) <= bp (-20)) by (apply bpow_le; lia). assert (T30 : bp (-30) <= bp (-20)) by (apply bpow_le; lia).
    change (bp (-20)) with (/ 1048576) in *. change (bp (-23)) with (/ 8388608) in *. change (bp (-14)) with (/ 16384) in *. split; [exact E|]. split; lra.
Qed.

Lemma near_lists : forall e a b c a' b' c', near3 e (a, b, c) (a', b', c') -> near_list e [a'; b'; c'] [a; b; c].
Proof. intros e a b c a' b' c' (H1 & H2 & H3). repeat (apply Forall2_cons; [rewrite Rabs_minus_sym; assumption|]). apply Forall2_nil. Qed.
Lemma scene_close : forall s vs k x0 x v m, agrees x v ->
  (forall p, In p (pc_points m) -> dot3 (triple p) (triple p) <= 100 * 100) ->
  (let '(a, b, c) := position s vs k v in (finite a /\ finite b /\ finite c) /\ near3 (bp (-14)) (real a, real b, real c) (metres x0 x)) ->
  near_scene (bp (-10)) (scene_said x0 x m) (scene_of s vs k v m).
Proof.
  intros s vs k x0 x v m A D P. unfold near_scene, scene_said, scene_of. destruct (position s vs k v) as [[a b] c]. destruct P as [_ P]. cbn [coords map fst snd].
  destruct (metres x0 x) as [[e n] u] eqn:EM. 
  assert (T : bp (-14) <= bp (-10)) by (apply bpow_le; lia).
  split.
  - cbn [list3]. apply near_lists. destruct P as (P1 & P2 & P3). unfold near3. lra.
  - destruct A as (_ & _ & _ & (_ & R) & (_ & Pi) & (_ & Y)). clear - D P R Pi Y. induction (pc_points m) as [|p l IH]; cbn [map]; [apply Forall2_nil|].
    apply Forall2_cons; [|apply IH; intros q Iq; apply D; now right].
    pose proof (turned_close _ _ _ _ _ _ _ (triple p) R Pi Y (D p (or_introl eq_refl))) as K.
    destruct (turned (roll_said x) (pitch_said x) (yaw_said x) (triple p)) as [[t1 t2] t3]. destruct (turned (real (oxt_roll v)) (real (oxt_pitch v)) (real (oxt_yaw v)) (triple p)) as [[t1' t2'] t3'].
    unfold triple. cbn [nth plus3 list3]. apply near_lists. destruct K as (K1 & K2 & K3), P as (P1 & P2 & P3).
    change (bp (-25)) with (/ 33554432) in *. change (bp (-14)) with (/ 16384) in *. change (bp (-10)) with (/ 1024).
    split; [|split]; (eapply Rle_trans; [apply add_close; eassumption|lra]).
Qed.

(** The scenes of the records from record [k] on. *)
Fixpoint scenes_from (s : system) (vs : list oxt) (k : nat) (l : list oxt) (ms : list matrix) : list scene :=
  match l, ms with v :: l', m :: ms' => scene_of s vs k v m :: scenes_from s vs (S k) l' ms' | _, _ => [] end.
Lemma scenes_from_nth : forall s vs l ms k i v m, nth_error l i = Some v -> nth_error ms i = Some m -> nth_error (scenes_from s vs k l ms) i = Some (scene_of s vs (k + i) v m).
Proof.
  intros s vs. induction l as [|v l IH]; intros ms k i w m Hv Hm; [destruct i; discriminate Hv|]. destruct ms as [|m' ms]; [destruct i; discriminate Hm|]. destruct i as [|i]; cbn [nth_error scenes_from] in *.
  - injection Hv as ->. injection Hm as ->. now rewrite Nat.add_0_r.
  - rewrite (IH ms (S k) i w m Hv Hm). do 2 f_equal. lia.
Qed.
Lemma scenes_from_length : forall s vs l ms k, length l = length ms -> length (scenes_from s vs k l ms) = length l.
Proof. intros s vs. induction l as [|v l IH]; intros [|m ms] k L; try discriminate L; [reflexivity|]. cbn [scenes_from length]. now rewrite IH by (injection L; auto). Qed.
Lemma scenes_from_near : forall s vs x0 xs l ms k, length xs = length l -> length l = length ms ->
  (forall i x v m, nth_error xs i = Some x -> nth_error l i = Some v -> nth_error ms i = Some m -> near_scene (bp (-10)) (scene_said x0 x m) (scene_of s vs (k + i) v m)) ->
  Forall2 (near_scene (bp (-10))) (map2 (scene_said x0) xs ms) (scenes_from s vs k l ms).
Proof.
  intros s vs x0. induction xs as [|x xs IH]; intros [|v l] [|m ms] k L1 L2 H; try discriminate L1; try discriminate L2; [apply Forall2_nil|]. cbn [map2 scenes_from]. apply Forall2_cons.
  - rewrite <- (Nat.add_0_r k). apply (H 0%nat); reflexivity.
  - apply IH; [now injection L1|now injection L2|]. intros i y w n Hy Hw Hn. replace (S k + i)%nat with (k + S i)%nat by lia. now apply (H (S i)).
Qed.

Lemma reads_all : forall s d names xs, std_parsers s -> Forall2 (pose_text d) names xs -> Forall on_earth xs ->
  exists vs, Forall2 (oxt_file s d) names vs /\ Forall2 agrees xs vs.
Proof.
  intros s d names xs P H. induction H as [|n x names xs Hx _ IH]; intro E; [exists []; split; constructor|]. apply Forall_cons_iff in E as [E1 E2].
  destruct (IH E2) as (vs & V1 & V2). destruct (pose_reads s d n x P Hx E1) as (v & Fv & Av). exists (v :: vs). split; constructor; assumption.
Qed.
Lemma agrees_nth : forall xs vs i v, Forall2 agrees xs vs -> nth_error vs i = Some v -> exists x, nth_error xs i = Some x /\ agrees x v.
Proof.
  intros xs vs i v H. revert i. induction H as [|x w xs vs A _ IH]; intros i Hi; [destruct i; discriminate Hi|]. destruct i as [|i]; cbn [nth_error] in *; [injection Hi as ->; exists x; auto|]. now apply IH.
Qed.

Lemma text_near : forall s f xs ms, std_parsers s -> drive_text s f xs ms -> cos_accurate (sys_cos64 s) -> reasonable xs ms ->
  exists vs scs, drive s f vs ms /\ length vs = length xs /\ measured s vs ms /\ scenes_of s vs ms scs /\ Forall2 (near_scene (bp (-10))) (scenes_said xs ms) scs.
Proof.
  intros s f xs ms P (E1 & E2 & L & (names & O & H) & (names' & O' & H')) C [R1 R2].
  assert (OE : Forall on_earth xs).
  { apply Forall_forall. intros x Ix. destruct xs as [|x0 xs]; [destruct Ix|]. destruct (R1 x0 x eq_refl Ix) as (A & B & _). exact (conj A B). }
  destruct (reads_all s _ names xs P H OE) as (vs & V1 & V2). assert (LV : length vs = length xs) by (symmetry; exact (Forall2_length _ _ _ V2)).
  exists vs, (scenes_from s vs 0 vs ms).
  assert (K : forall i v m, nth_error vs i = Some v -> nth_error ms i = Some m -> exists x0 x, nth_error xs 0 = Some x0 /\ nth_error xs i = Some x /\ agrees x v /\ within_199 x0 x /\
     (let '(a, b, c) := position s vs i v in (finite a /\ finite b /\ finite c) /\ near3 (bp (-14)) (real a, real b, real c) (metres x0 x))).
  { intros i v m Hv Hm. destruct (agrees_nth xs vs i v V2 Hv) as (x & Hx & A). destruct xs as [|x0 xs]; [destruct i; discriminate Hx|]. destruct vs as [|v0 vs]; [destruct i; discriminate Hv|].
    destruct (agrees_nth _ _ 0%nat v0 V2 eq_refl) as (x0' & Hx0 & A0). injection Hx0 as <-. destruct (R1 x0 x eq_refl (nth_error_In _ _ Hx)) as (_ & _ & W).
    exists x0, x. split; [reflexivity|]. split; [exact Hx|]. split; [exact A|]. split; [exact W|].
    apply (position_close s (v0 :: vs) i x0 x v0 v C eq_refl Hv A0 A); [|exact W]. intros ->. cbn [nth_error] in Hx. now injection Hx. }
  split; [|split; [exact LV|split; [|split]]].
  - split; [exact E1|]. split; [exact E2|]. split; [congruence|]. split; [exists names; auto|exists names'; auto].
  - intros k v m Hv Hm. destruct (K k v m Hv Hm) as (x0 & x & _ & Hx & A & W & Po). rewrite Forall_forall in OE. destruct (OE x (nth_error_In _ _ Hx)) as (_ & Br & Bp & By).
    destruct A as (_ & _ & _ & (Fr & Ar) & (Fp & Ap) & (Fy & Ay)). assert (T : 15 * bp (-25) <= 1) by (change (bp (-25)) with (/ 33554432); lra).
    pose proof (abs_chain _ _ _ Ar). pose proof (abs_chain _ _ _ Ap). pose proof (abs_chain _ _ _ Ay).
    split; [split; [exact Fr|lra]|]. split; [split; [exact Fp|lra]|]. split; [split; [exact Fy|lra]|]. split; [|intros p Ip; exact (R2 m p (nth_error_In _ _ Hm) Ip)].
    destruct (position s vs k v) as [[a b] c]. destruct Po as ((Fa & Fb & Fc) & N). unfold within_199 in W. destruct (metres x0 x) as [[e n] u]. destruct N as (N1 & N2 & N3), W as (W1 & W2 & W3).
    change (bp (-14)) with (/ 16384) in *. pose proof (abs_chain _ _ _ N1). pose proof (abs_chain _ _ _ N2). pose proof (abs_chain _ _ _ N3). cbn [coords].
    apply Forall_cons; [split; [assumption|lra]|]. apply Forall_cons; [split; [assumption|lra]|]. apply Forall_cons; [split; [assumption|lra]|apply Forall_nil].
  - split; [rewrite scenes_from_length; congruence|]. intros k v m Hv Hm. exact (scenes_from_nth s vs vs ms 0 k v m Hv Hm).
  - unfold scenes_said. destruct xs as [|x0 xs]; [destruct vs; [apply Forall2_nil|discriminate LV]|]. apply scenes_from_near; [congruence|congruence|].
    intros i x v m Hx Hv Hm. destruct (K i v m Hv Hm) as (x0' & x' & Hx0 & Hx' & A & W & Po). cbn [nth_error] in Hx0. injection Hx0 as <-. rewrite Hx in Hx'. injection Hx' as <-.
    apply scene_close; [exact A| |exact Po]. intros p Ip. apply (R2 m p (nth_error_In _ _ Hm) Ip).
Qed.

(** ** Theorems *)
Lemma text_opens : forall s lookup args path xs ms, std_parsers s -> Forall is_text args -> nth_error args 1 = Some path -> drive_text s (lookup path) xs ms ->
  cos_accurate (sys_cos64 s) -> reasonable xs ms -> exists rec, viz_main s lookup args = Ret (Some rec).
Proof.
  intros s lookup args path xs ms P T Pa D C R. destruct (text_near s _ xs ms P D C R) as (vs & scs & D' & _). apply main_opens. split; [exact T|]. exists path. split; [exact Pa|]. exists vs, ms. exact D'.
Qed.
Lemma text_safe : forall s lookup args path rec xs ms lm tr st, std_parsers s -> viz_main s lookup args = Ret (Some rec) -> nth_error args 1 = Some path -> drive_text s (lookup path) xs ms ->
  xs <> [] -> trig_accurate (sys_sin s) (sys_cos s) -> cos_accurate (sys_cos64 s) -> reasonable xs ms ->
  (forall scs, Forall2 (near_scene (bpow radix2 (-10))) (scenes_said xs ms) scs -> Forall (scene_clear (real DEFAULT_RESOLUTION)) scs) ->
  limit_near (max_range lm) DEFAULT_RESOLUTION -> reaches rec 3 lm DEFAULT_RESOLUTION DEFAULT_TILE_SIZE tr st ->
  existsb panicked (workers st) = false /\ render st <> RPanicked /\
  forall newer w older, workers st = newer ++ w :: older -> alive w = true -> moves rec (Worker (length older)) st.
Proof.
  intros s lookup args path rec xs ms lm tr st P E Pa D NE TA C R SC HM Re. destruct (text_near s _ xs ms P D C R) as (vs & scs & D' & LV & M & SO & N).
  apply (drive_safe s lookup args path rec vs ms scs lm tr st E Pa D'); try assumption; [|now apply SC]. intros ->. destruct xs; [congruence|discriminate LV].
Qed.
Lemma text_displayed : forall s lookup args path rec xs ms ln o st th ev w b vals, std_parsers s -> viz_main s lookup args = Ret (Some rec) -> nth_error args 1 = Some path -> drive_text s (lookup path) xs ms ->
  xs <> [] -> trig_accurate (sys_sin s) (sys_cos s) -> cos_accurate (sys_cos64 s) -> reasonable xs ms ->
  (forall scs, Forall2 (near_scene (bpow radix2 (-10))) (scenes_said xs ms) scs ->
     Forall (scene_clear (real DEFAULT_RESOLUTION)) scs /\ lowest_first (real DEFAULT_RESOLUTION) scs /\ Forall2 (scene_says 60 (real DEFAULT_RESOLUTION) w) scs vals) ->
  ln_special ln -> ln_monotone ln -> (forall x, fltb f1 x = true -> fltb f0 (ln x) = true) ->
  om_default 3 ln = Ret o -> execution rec o st th ev -> fair rec st th -> length w = 3%nat ->
  Forall (fun v => v = None \/ v = Some b) vals -> Exists (fun v => v <> None) vals ->
  exists N, forall n, (N <= n)%nat -> exists cb, covers_cells 3 DEFAULT_RESOLUTION DEFAULT_TILE_SIZE (om_grid (grid (st n))) cb /\ in_box cb w /\
    ((exists p, In (map2 Z.sub w (cmin cb), p) (tracked (st n))) <-> b = true) /\
    (forall p, In (map2 Z.sub w (cmin cb), p) (tracked (st n)) -> near_cell DEFAULT_RESOLUTION w p).
Proof.
  intros s lookup args path rec xs ms ln o st th ev w b vals P E Pa D NE TA C R SC S Mo Po EO X Fa Lw Sb Sx. destruct (text_near s _ xs ms P D C R) as (vs & scs & D' & LV & M & SO & N).
  destruct (SC scs N) as (S1 & S2 & S3).
  apply (drive_displayed s lookup args path rec vs ms scs ln o st th ev w b vals E Pa D'); try assumption. intros ->. destruct xs; [congruence|discriminate LV].
Qed.
