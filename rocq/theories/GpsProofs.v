(** Proofs about the conversion of GPS positions to metres. *)
From Coq Require Import ZArith List Bool Reals Lra Lia Psatz.
From Coq Require Import Machin Ratan.
From Flocq Require Import Core BinarySingleNaN Relative.
From Verif Require Import Base F32 F64 FloatFacts RoundError Arith Geom Kitti Spec SpecKitti.
Open Scope R_scope.

(** ** f64 rounding *)
Definition u64 : R := / 9007199254740992.
Definition rnd64 (x : R) : R := round radix2 (SpecFloat.fexp 53 1024) (round_mode mode_NE) x.

Lemma half_ulp_u64 : /2 * bp (Z.opp 53 + 1) = u64.
Proof. unfold u64, bpow. simpl. lra. Qed.

Lemma rnd64_err : forall x, Rabs (rnd64 x - x) <= u64 * Rabs x + bp (-1000).
Proof.
  intros x. pose proof (bpow_gt_0 radix2 (-1000)) as B.
  assert (U : 0 <= u64 * Rabs x) by (apply Rmult_le_pos; [unfold u64; lra|apply Rabs_pos]).
  destruct (Rle_or_lt (bp (-1022)) (Rabs x)) as [H|H].
  - pose proof (relative_error_N_FLT radix2 (-1074) 53 eq_refl (fun z => negb (Z.even z)) x) as E.
    rewrite half_ulp_u64 in E. specialize (E H). unfold rnd64. cbn [round_mode].
    change (SpecFloat.fexp 53 1024) with (FLT_exp (-1074) 53). lra.
  - destruct (Req_dec x 0) as [->|Hx].
    { unfold rnd64. rewrite round_0 by apply valid_rnd_round_mode. rewrite Rminus_0_r, Rabs_R0. lra. }
    pose proof (error_le_half_ulp radix2 (FLT_exp (-1074) 53) (fun z => negb (Z.even z)) x) as E.
    rewrite ulp_neq_0 in E by assumption.
    assert (Hc : cexp radix2 (FLT_exp (-1074) 53) x = (-1074)%Z).
    { unfold cexp, FLT_exp. apply Z.max_r. assert (mag radix2 x <= -1022)%Z by (now apply mag_le_bpow). lia. }
    rewrite Hc in E. pose proof (bpow_le radix2 (-1074) (-1000) ltac:(lia)) as L. pose proof (bpow_gt_0 radix2 (-1074)).
    unfold rnd64. cbn [round_mode]. change (SpecFloat.fexp 53 1024) with (FLT_exp (-1074) 53). lra.
Qed.

Lemma bp1024 : 2 * bp 1000 + 1 < bp 1024.
Proof.
  change 1024%Z with (1000 + 24)%Z. rewrite bpow_plus. change (bp 24) with 16777216.
  pose proof (bpow_le radix2 0 1000 ltac:(lia)) as L. change (bp 0) with 1 in L. lra.
Qed.
Lemma rnd64_small : forall x, Rabs x <= bp 1000 -> Rabs (rnd64 x) < bp 1024.
Proof.
  intros x H. pose proof (rnd64_err x) as E. pose proof bp1024. pose proof (bpow_le radix2 (-1000) 0 ltac:(lia)) as L.
  change (bp 0) with 1 in L. pose proof (Rabs_triang_inv (rnd64 x) x). unfold u64 in E. pose proof (Rabs_pos x). lra.
Qed.

Lemma dsub_fin : forall x y : f64, finite64 x -> finite64 y -> Rabs (real64 x - real64 y) <= bp 1000 ->
  finite64 (dsub x y) /\ real64 (dsub x y) = rnd64 (real64 x - real64 y).
Proof.
  intros x y Fx Fy H. pose proof (Bminus_correct 53 1024 _ _ mode_NE x y Fx Fy) as C.
  rewrite Rlt_bool_true in C by (now apply rnd64_small). split; apply C.
Qed.
Lemma dmul_fin : forall x y : f64, finite64 x -> finite64 y -> Rabs (real64 x * real64 y) <= bp 1000 ->
  finite64 (dmul x y) /\ real64 (dmul x y) = rnd64 (real64 x * real64 y).
Proof.
  intros x y Fx Fy H. pose proof (Bmult_correct 53 1024 _ _ mode_NE x y) as C.
  rewrite Rlt_bool_true in C by (now apply rnd64_small). destruct C as (C1 & C2 & _).
  split; [|exact C1]. unfold finite64 in *. unfold dmul. rewrite C2, Fx, Fy. reflexivity.
Qed.
Lemma ddiv_fin : forall x y : f64, finite64 x -> real64 y <> 0 -> Rabs (real64 x / real64 y) <= bp 1000 ->
  finite64 (ddiv x y) /\ real64 (ddiv x y) = rnd64 (real64 x / real64 y).
Proof.
  intros x y Fx Hy H. pose proof (Bdiv_correct 53 1024 _ _ mode_NE x y Hy) as C.
  rewrite Rlt_bool_true in C by (now apply rnd64_small). destruct C as (C1 & C2 & _).
  split; [|exact C1]. unfold finite64 in *. unfold ddiv. now rewrite C2.
Qed.

Lemma cast_fin : forall x : f64, finite64 x -> Rabs (real64 x) <= bp 127 ->
  finite (f32_of_f64 x) /\ real (f32_of_f64 x) = rnd (real64 x).
Proof.
  intros [s|s| |s m e v] Fx H; try discriminate Fx.
  - split; [reflexivity|]. unfold real, real64. cbn. now rewrite rnd_0.
  - unfold f32_of_f64, real64, finite in *. cbn [B2R] in *.
    pose proof (binary_normalize_correct 24 128 _ _ mode_NE (cond_Zopp s (Z.pos m)) e s) as C. cbv zeta in C.
    rewrite Rlt_bool_true in C by (now apply rnd_abs_lt_128). destruct C as (C1 & C2 & _). split; [exact C2|exact C1].
Qed.

Lemma f64_of_Z_exact : forall z, (Z.abs z <= 2 ^ 53)%Z -> finite64 (f64_of_Z z) /\ real64 (f64_of_Z z) = IZR z.
Proof.
  intros z Hz. pose proof (binary_normalize_correct 53 1024 _ _ mode_NE z 0 false) as C. cbv zeta in C.
  assert (E : F2R (Float radix2 z 0) = IZR z) by (unfold F2R; cbn [Fnum Fexp]; change (bp 0) with 1; ring). rewrite E in C.
  assert (G : rnd64 (IZR z) = IZR z).
  { unfold rnd64. apply round_generic; [apply valid_rnd_round_mode|].
    destruct (Z.eq_dec (Z.abs z) (2 ^ 53)) as [Ez|Ez].
    - assert (Hb : IZR z = bp 53 \/ IZR z = - bp 53).
      { destruct (Z.abs_eq_or_opp z) as [Q|Q]; rewrite Q in Ez; [left|right].
        - rewrite Ez. reflexivity.
        - replace z with (- 2 ^ 53)%Z by lia. rewrite opp_IZR. reflexivity. }
      assert (Gb : generic_format radix2 (SpecFloat.fexp 53 1024) (bp 53)) by (apply generic_format_bpow; reflexivity || (cbv; discriminate)).
      destruct Hb as [->| ->]; [exact Gb|now apply generic_format_opp].
    - change (SpecFloat.fexp 53 1024) with (FLT_exp (-1074) 53). apply generic_format_FLT.
      exists (Float radix2 z 0); [now rewrite E| cbn [Fnum]; change (Zpower radix2 53) with (2 ^ 53)%Z; lia | cbn; lia]. }
  fold (rnd64 (IZR z)) in C. rewrite G in C.
  rewrite Rlt_bool_true in C.
  2:{ rewrite <- abs_IZR. apply Rle_lt_trans with (IZR (2 ^ 53)); [now apply IZR_le|].
      change (IZR (2 ^ 53)) with (bp 53). apply bpow_lt. lia. }
  destruct C as (C1 & C2 & _). split; [exact C2|exact C1].
Qed.

(** ** A chain of roundings *)
Lemma abs_chain : forall a b e, Rabs (b - a) <= e -> Rabs b <= Rabs a + e.
Proof. intros a b e H. pose proof (Rabs_triang_inv b a). lra. Qed.
Lemma abs_add : forall a b c e f, Rabs (b - a) <= e -> Rabs (c - b) <= f -> Rabs (c - a) <= e + f.
Proof. intros a b c e f H1 H2. replace (c - a) with ((c - b) + (b - a)) by ring. pose proof (Rabs_triang (c - b) (b - a)). lra. Qed.

Lemma bp_tiny : 1000000 * bp (-1000) <= bp (-151).
Proof.
  change (-151)%Z with (-1000 + 849)%Z. rewrite bpow_plus. pose proof (bpow_gt_0 radix2 (-1000)) as B.
  assert (1000000 <= bp 849). { pose proof (bpow_le radix2 24 849 ltac:(lia)) as L. change (bp 24) with 16777216 in L. lra. } nra.
Qed.
Lemma bp_149 : bp (-149) = 2 * bp (-150) /\ bp (-150) = 2 * bp (-151).
Proof.
  split; [change (-149)%Z with (1 + -150)%Z|change (-150)%Z with (1 + -151)%Z]; rewrite bpow_plus; change (bp 1) with 2; reflexivity.
Qed.
Lemma bp_m23 : bp (-23) = / 8388608.
Proof. unfold bpow. simpl. reflexivity. Qed.

(** The last cast, after f64 computations with small relative error. *)
Lemma cast_nearly : forall (q : f64) v, finite64 q -> Rabs v <= bp 100 -> Rabs (real64 q - v) <= 8 * u64 * Rabs v + bp (-151) ->
  nearly (f32_of_f64 q) v.
Proof.
  intros q v Fq Hv Hq. destruct bp_149 as [B1 B2]. pose proof (bpow_gt_0 radix2 (-151)) as B.
  pose proof (abs_chain _ _ _ Hq) as Aq. pose proof (Rabs_pos v) as Pv.
  assert (L : bp (-151) <= 1). { pose proof (bpow_le radix2 (-151) 0 ltac:(lia)) as L. exact L. }
  assert (L2 : 2 * bp 100 + 1 <= bp 127).
  { change 127%Z with (100 + 27)%Z. rewrite bpow_plus. change (bp 27) with 134217728. pose proof (bpow_le radix2 0 100 ltac:(lia)) as Z. change (bp 0) with 1 in Z. lra. }
  assert (Hs : Rabs (real64 q) <= bp 127) by (unfold u64 in *; lra).
  destruct (cast_fin q Fq Hs) as [Ff Er]. split; [exact Ff|]. rewrite Er.
  pose proof (rnd_err (real64 q)) as E. pose proof (abs_add _ _ _ _ _ Hq E) as T. rewrite bp_m23. unfold u32, u64 in *. lra.
Qed.

(** ** North and up *)
Lemma scaled_difference : forall (a b P : f64) p, at_most 1000 a -> at_most 1000 b -> finite64 P -> real64 P = p -> 0 <= p <= 100000000 ->
  let q := ddiv (dmul (dsub a b) P) (f64_of_Z 360) in
  finite64 q /\ Rabs (real64 q - (real64 a - real64 b) * p / 360) <= 8 * u64 * Rabs ((real64 a - real64 b) * p / 360) + bp (-151).
Proof.
  intros a b P p [Fa Ha] [Fb Hb] FP Ep Hp q. unfold q. clear q.
  set (x := real64 a - real64 b). assert (Hx : Rabs x <= 2000).
  { unfold x. pose proof (Rabs_triang (real64 a) (- real64 b)) as T. rewrite Rabs_Ropp in T. unfold Rminus. lra. }
  assert (L1000 : 10000000000000000 <= bp 1000).
  { pose proof (bpow_le radix2 60 1000 ltac:(lia)) as L. change (bp 60) with 1152921504606846976 in L. lra. }
  pose proof bp_tiny as T0. pose proof (bpow_gt_0 radix2 (-1000)) as T1. 
  assert (T2 : bp (-1000) <= 1). { pose proof (bpow_le radix2 (-1000) 0 ltac:(lia)) as L. exact L. }
  destruct (dsub_fin a b Fa Fb ltac:(fold x; lra)) as [Fd Ed]. fold x in Ed.
  pose proof (rnd64_err x) as E1. rewrite <- Ed in E1. set (d := real64 (dsub a b)) in *.
  pose proof (abs_chain _ _ _ E1) as A1.
  assert (Hd : Rabs d <= 2002) by (unfold u64 in *; lra).
  assert (Hdp : Rabs (d * p) <= 200200000000).
  { rewrite Rabs_mult, (Rabs_right p) by lra. pose proof (Rabs_pos d). nra. }
  destruct (dmul_fin (dsub a b) P Fd FP ltac:(fold d; rewrite Ep; lra)) as [Fm Em]. fold d in Em. rewrite Ep in Em.
  pose proof (rnd64_err (d * p)) as E2. rewrite <- Em in E2. set (m := real64 (dmul (dsub a b) P)) in *.
  pose proof (abs_chain _ _ _ E2) as A2.
  destruct (f64_of_Z_exact 360 ltac:(lia)) as [F3 R3].
  assert (Hm : Rabs (m / 360) = Rabs m / 360) by (unfold Rdiv; rewrite Rabs_mult, (Rabs_right (/ 360)) by lra; reflexivity).
  destruct (ddiv_fin (dmul (dsub a b) P) (f64_of_Z 360) Fm ltac:(rewrite R3; lra)) as [Fq Eq].
  { fold m. rewrite R3. rewrite Hm. unfold u64 in *. lra. }
  fold m in Eq. rewrite R3 in Eq. split; [exact Fq|].
  pose proof (rnd64_err (m / 360)) as E3. rewrite <- Eq in E3. set (q := real64 (ddiv (dmul (dsub a b) P) (f64_of_Z 360))) in *.
  clearbody q m d. clear Ed Em Eq.
  assert (D1 : Rabs (d * p / 360 - x * p / 360) <= u64 * Rabs (x * p / 360) + 300000 * bp (-1000)).
  { replace (d * p / 360 - x * p / 360) with ((d - x) * (p / 360)) by field.
    replace (x * p / 360) with (x * (p / 360)) by field. rewrite !Rabs_mult, (Rabs_right (p / 360)) by lra. 
    assert (0 <= p / 360 <= 300000) by lra. pose proof (Rabs_pos (d - x)). nra. }
  assert (D2 : Rabs (m / 360 - d * p / 360) <= u64 * Rabs (d * p / 360) + bp (-1000)).
  { replace (m / 360 - d * p / 360) with ((m - d * p) * / 360) by field. unfold Rdiv at 1.
    rewrite !Rabs_mult, (Rabs_right (/ 360)) by lra. rewrite <- Rabs_mult. lra. }
  pose proof (abs_chain _ _ _ D1) as C1. pose proof (abs_chain _ _ _ D2) as C2.
  pose proof (abs_add _ _ _ _ _ (abs_add _ _ _ _ _ D1 D2) E3) as T.
  pose proof (Rabs_pos (x * p / 360)) as Pv. unfold u64 in *. lra.
Qed.

Lemma north : forall c p o, at_most 1000 (fst (fst p)) -> at_most 1000 (fst (fst o)) ->
  nearly (snd (fst (gps_to_meters c p o))) ((real64 (fst (fst p)) - real64 (fst (fst o))) * 40008000 / 360).
Proof.
  intros c [[p0 p1] p2] [[o0 o1] o2] Hp Ho. cbn [fst snd gps_to_meters] in *.
  destruct (f64_of_Z_exact 40008000 ltac:(lia)) as [F R].
  destruct (scaled_difference p0 o0 EARTH_POLE_CIRCUMFERENCE 40008000 Hp Ho F R ltac:(lra)) as [Fq Hq].
  apply cast_nearly; [exact Fq| |exact Hq].
  destruct Hp as [_ Hp], Ho as [_ Ho]. pose proof (Rabs_triang (real64 p0) (- real64 o0)) as T. rewrite Rabs_Ropp in T.
  pose proof (bpow_le radix2 60 100 ltac:(lia)) as L. change (bp 60) with 1152921504606846976 in L.
  replace ((real64 p0 - real64 o0) * 40008000 / 360) with ((real64 p0 + - real64 o0) * (40008000 / 360)) by field.
  rewrite Rabs_mult, (Rabs_right (40008000 / 360)) by lra. lra.
Qed.

Lemma up : forall c p o, at_most (2 ^ 80) (snd p) -> at_most (2 ^ 80) (snd o) ->
  nearly (snd (gps_to_meters c p o)) (real64 (snd p) - real64 (snd o)).
Proof.
  intros c [[p0 p1] p2] [[o0 o1] o2] [Fp Hp] [Fo Ho]. cbn [fst snd gps_to_meters] in *.
  pose proof (Rabs_triang (real64 p2) (- real64 o2)) as T. rewrite Rabs_Ropp in T. fold (real64 p2 - real64 o2) in T.
  change (IZR (2 ^ 80)) with (bp 80) in *.
  assert (B : 2 * bp 80 <= bp 100). { change 100%Z with (80 + 20)%Z. rewrite bpow_plus. change (bp 20) with 1048576. pose proof (bpow_gt_0 radix2 80). lra. }
  pose proof (bpow_le radix2 100 1000 ltac:(lia)) as L.
  destruct (dsub_fin p2 o2 Fp Fo ltac:(lra)) as [Fd Ed].
  apply cast_nearly; [exact Fd|lra|]. rewrite Ed. pose proof (rnd64_err (real64 p2 - real64 o2)) as E.
  pose proof bp_tiny. pose proof (bpow_gt_0 radix2 (-1000)). pose proof (Rabs_pos (real64 p2 - real64 o2)). unfold u64 in *. lra.
Qed.

(** ** The origin *)
Lemma dsub_self : forall x : f64, finite64 x -> dsub x x = B754_zero false.
Proof.
  intros x Fx. assert (H : Rabs (real64 x - real64 x) <= bp 1000).
  { rewrite Rminus_diag_eq, Rabs_R0 by reflexivity. apply bpow_ge_0. }
  pose proof (Bminus_correct 53 1024 _ _ mode_NE x x Fx Fx) as C.
  rewrite Rlt_bool_true in C by (now apply rnd64_small).
  destruct C as (C1 & C2 & C3). rewrite Rminus_diag_eq in C1, C3 by reflexivity. rewrite round_0 in C1 by apply valid_rnd_round_mode.
  rewrite Rcompare_Eq in C3 by reflexivity.
  apply B2R_Bsign_inj; auto. unfold dsub. rewrite C3. cbn. now destruct (Bsign x).
Qed.

Lemma dzero_mul : forall y : f64, finite64 y -> finite64 (dmul (B754_zero false) y) /\ real64 (dmul (B754_zero false) y) = 0.
Proof. intros [s|s| |s m e v] H; try discriminate H; split; reflexivity. Qed.
Lemma dzero_div : forall x y : f64, finite64 x -> real64 x = 0 -> finite64 y -> real64 y <> 0 ->
  finite64 (ddiv x y) /\ real64 (ddiv x y) = 0.
Proof.
  intros x y Fx Hx Fy Hy. destruct (ddiv_fin x y Fx Hy) as [F R].
  { rewrite Hx. unfold Rdiv. rewrite Rmult_0_l, Rabs_R0. apply bpow_ge_0. }
  split; [exact F|]. rewrite R, Hx. unfold Rdiv. rewrite Rmult_0_l. apply round_0. apply valid_rnd_round_mode.
Qed.
Lemma cast_zero : forall x : f64, finite64 x -> real64 x = 0 -> finite (f32_of_f64 x) /\ real (f32_of_f64 x) = 0.
Proof.
  intros x Fx Hx. destruct (cast_fin x Fx) as [F R]; [rewrite Hx, Rabs_R0; apply bpow_ge_0|]. split; [exact F|]. now rewrite R, Hx, rnd_0.
Qed.

Lemma origin_is_zero : forall c p0 p1 p2, finite64 p0 -> finite64 p1 -> finite64 p2 -> at_most 2 (c (B754_zero false)) ->
  let '(x, y, z) := gps_to_meters c (p0, p1, p2) (p0, p1, p2) in
  (finite x /\ real x = 0) /\ (finite y /\ real y = 0) /\ (finite z /\ real z = 0).
Proof.
  intros c p0 p1 p2 F0 F1 F2 [Fc Hc]. unfold gps_to_meters. rewrite !dsub_self by assumption.
  assert (Er : to_radians (B754_zero false) = B754_zero false).
  { unfold to_radians. apply B2SF_inj. vm_compute. reflexivity. }
  rewrite Er. destruct (f64_of_Z_exact 360 ltac:(lia)) as [F3 R3].
  destruct (f64_of_Z_exact 40075160 ltac:(lia)) as [Fe Re]. destruct (f64_of_Z_exact 40008000 ltac:(lia)) as [Fn Rn].
  assert (R30 : real64 (f64_of_Z 360) <> 0) by (rewrite R3; lra).
  destruct (dmul_fin EARTH_EQUATOR_CIRCUMFERENCE (c (B754_zero false)) Fe Fc) as [Fl _].
  { change (real64 EARTH_EQUATOR_CIRCUMFERENCE) with (real64 (f64_of_Z 40075160)). rewrite Re, Rabs_mult, (Rabs_right 40075160) by lra.
    pose proof (bpow_le radix2 60 1000 ltac:(lia)) as L. change (bp 60) with 1152921504606846976 in L. lra. }
  destruct (dzero_mul _ Fl) as [Fx Rx]. destruct (dzero_div _ _ Fx Rx F3 R30) as [Fx' Rx'].
  destruct (dzero_mul _ Fn) as [Fy Ry]. destruct (dzero_div _ _ Fy Ry F3 R30) as [Fy' Ry'].
  split; [now apply cast_zero|]. split; [now apply cast_zero|]. now apply cast_zero.
Qed.

(** ** East *)
Lemma PI_bounds : 3.1415926535 <= PI <= 3.1415926536.
Proof.
  split.
  - pose proof (proj1 (PI_2_3_7_ineq 5)) as H.
    cbn [Nat.mul Nat.add sum_f_R0] in H. unfold tg_alt, PI_2_3_7_tg, Ratan_seq in H. cbn [pow Nat.mul Nat.add INR] in H.
    simpl in H. lra.
  - pose proof (proj2 (PI_2_3_7_ineq 5)) as H.
    cbn [Nat.mul Nat.add sum_f_R0] in H. unfold tg_alt, PI_2_3_7_tg, Ratan_seq in H. cbn [pow Nat.mul Nat.add INR] in H.
    simpl in H. lra.
Qed.

Lemma PI64_value : finite64 PI64 /\ Rabs (real64 PI64 - PI) <= / 1000000000.
Proof.
  pose proof (binary_normalize_correct 53 1024 _ _ mode_NE 884279719003555 (-48) false) as C. cbv zeta in C.
  assert (E : F2R (Float radix2 884279719003555 (-48)) = 884279719003555 / 281474976710656).
  { unfold F2R. cbn [Fnum Fexp]. change (bp (-48)) with (/ 281474976710656). field. }
  rewrite E in C.
  assert (A : Rabs (884279719003555 / 281474976710656) <= 4) by (rewrite Rabs_right; lra).
  assert (L : 4 <= bp 1000). { pose proof (bpow_le radix2 2 1000 ltac:(lia)) as L. exact L. }
  rewrite Rlt_bool_true in C by (apply rnd64_small; lra). destruct C as (C1 & C2 & _).
  split; [exact C2|]. unfold PI64, f64_of, real64. rewrite C1.
  pose proof (rnd64_err (884279719003555 / 281474976710656)) as R. pose proof PI_bounds as P.
  assert (T : bp (-1000) <= / 1048576). { pose proof (bpow_le radix2 (-1000) (-20) ltac:(lia)) as T. unfold bpow at 2 in T. simpl in T. exact T. }
  assert (T' : bp (-1000) <= / 1000000000000). { pose proof (bpow_le radix2 (-1000) (-40) ltac:(lia)) as T'. unfold bpow at 2 in T'. simpl in T'. lra. }
  fold (rnd64 (884279719003555 / 281474976710656)).
  apply (Rle_trans _ (Rabs (rnd64 (884279719003555 / 281474976710656) - 884279719003555 / 281474976710656) + Rabs (884279719003555 / 281474976710656 - PI))).
  - replace (rnd64 (884279719003555 / 281474976710656) - PI) with
      ((rnd64 (884279719003555 / 281474976710656) - 884279719003555 / 281474976710656) + (884279719003555 / 281474976710656 - PI)) by ring.
    apply Rabs_triang.
  - assert (Rabs (884279719003555 / 281474976710656 - PI) <= / 9000000000) by (apply Rabs_le; lra). unfold u64 in R. lra.
Qed.

Lemma sin_abs : forall x, Rabs (sin x) <= Rabs x.
Proof.
  assert (P : forall x, 0 <= x -> Rabs (sin x) <= x).
  { intros x [Hx|<-]; [|rewrite sin_0, Rabs_R0; lra]. destruct (Rle_or_lt x PI) as [H|H].
    - rewrite Rabs_right; [left; now apply sin_lt_x|]. apply Rle_ge, sin_ge_0; lra.
    - pose proof PI_bounds. apply Rabs_le. pose proof (SIN_bound x). lra. }
  intros x. destruct (Rle_or_lt 0 x) as [H|H].
  - rewrite (Rabs_right x) by lra. now apply P.
  - rewrite (Rabs_left x) by lra. rewrite <- (Rabs_Ropp (sin x)), <- sin_neg. apply P. lra.
Qed.
Lemma cos_lipschitz : forall a b, Rabs (cos a - cos b) <= Rabs (a - b).
Proof.
  intros a b. rewrite form2, !Rabs_mult. rewrite (Rabs_left (-2)) by lra.
  pose proof (sin_abs ((a - b) / 2)) as H. unfold Rdiv in H at 2. rewrite Rabs_mult, (Rabs_right (/ 2)) in H by lra.
  assert (H2 : Rabs (sin ((a + b) / 2)) <= 1) by (apply Rabs_le, SIN_bound).
  pose proof (Rabs_pos (sin ((a - b) / 2))). pose proof (Rabs_pos (sin ((a + b) / 2))). nra.
Qed.

Lemma tiny : bp (-1000) <= / 1000000000000000000000000000000.
Proof. pose proof (bpow_le radix2 (-1000) (-100) ltac:(lia)) as T'. unfold bpow at 2 in T'. simpl in T'. lra. Qed.
Lemma huge : 1000000000000000000 <= bp 1000.
Proof. pose proof (bpow_le radix2 60 1000 ltac:(lia)) as L. change (bp 60) with 1152921504606846976 in L. lra. Qed.

Lemma radians : forall d : f64, finite64 d -> Rabs (real64 d) <= 200 ->
  finite64 (to_radians d) /\ Rabs (real64 (to_radians d) - real64 d * PI / 180) <= / 500000000.
Proof.
  intros d Fd Hd. destruct PI64_value as [FP HP]. pose proof PI_bounds as PB. pose proof tiny as T. pose proof huge as L.
  destruct (f64_of_Z_exact 180 ltac:(lia)) as [F1 R1].
  assert (Ap : Rabs (real64 PI64) <= 4) by (pose proof (abs_chain _ _ _ HP) as A; rewrite (Rabs_right PI) in A by lra; lra).
  assert (Hk0 : Rabs (real64 PI64 / 180) = Rabs (real64 PI64) / 180) by (unfold Rdiv; rewrite Rabs_mult, (Rabs_right (/ 180)) by lra; reflexivity).
  destruct (ddiv_fin PI64 (f64_of_Z 180) FP ltac:(rewrite R1; lra)) as [Fk Ek]; [rewrite R1, Hk0; lra|].
  rewrite R1 in Ek. pose proof (rnd64_err (real64 PI64 / 180)) as E1. rewrite <- Ek in E1. set (k := real64 (ddiv PI64 (f64_of_Z 180))) in *.
  rewrite Hk0 in E1.
  assert (K1 : Rabs (real64 PI64 / 180 - PI / 180) <= / 180000000000).
  { replace (real64 PI64 / 180 - PI / 180) with ((real64 PI64 - PI) * / 180) by field. rewrite Rabs_mult, (Rabs_right (/ 180)) by lra. lra. }
  assert (K2 : Rabs (k - PI / 180) <= / 150000000000) by (pose proof (abs_add _ _ _ _ _ K1 E1); unfold u64 in *; lra).
  assert (Ak : Rabs k <= 1) by (pose proof (abs_chain _ _ _ K2) as A; rewrite (Rabs_right (PI / 180)) in A by lra; lra).
  assert (Hdk : Rabs (real64 d * k) <= 200) by (rewrite Rabs_mult; pose proof (Rabs_pos (real64 d)); pose proof (Rabs_pos k); nra).
  destruct (dmul_fin d (ddiv PI64 (f64_of_Z 180)) Fd Fk ltac:(fold k; lra)) as [Fr Er]. fold k in Er.
  split; [exact Fr|]. unfold to_radians. pose proof (rnd64_err (real64 d * k)) as E2. rewrite <- Er in E2.
  assert (D : Rabs (real64 d * k - real64 d * PI / 180) <= / 700000000).
  { replace (real64 d * k - real64 d * PI / 180) with (real64 d * (k - PI / 180)) by field. rewrite Rabs_mult.
    pose proof (Rabs_pos (real64 d)). pose proof (Rabs_pos (k - PI / 180)). nra. }
  pose proof (abs_add _ _ _ _ _ D E2) as Q. unfold u64 in *. lra.
Qed.

Lemma at_most_sub : forall n a b, at_most n a -> at_most n b -> Rabs (real64 a - real64 b) <= 2 * IZR n.
Proof. intros n a b [_ Ha] [_ Hb]. pose proof (Rabs_triang (real64 a) (- real64 b)) as T. rewrite Rabs_Ropp in T. unfold Rminus. lra. Qed.

Lemma east : forall c p o, cos_accurate c ->
  at_most 90 (fst (fst p)) -> at_most 90 (fst (fst o)) -> at_most 360 (snd (fst p)) -> at_most 360 (snd (fst o)) ->
  let dlat := real64 (fst (fst p)) - real64 (fst (fst o)) in
  let dlon := real64 (snd (fst p)) - real64 (snd (fst o)) in
  let x := fst (fst (gps_to_meters c p o)) in
  finite x /\
  Rabs (real x - dlon * 40075160 * cos (dlat * PI / 180) / 360) <= bp (-23) * (Rabs dlon * 40075160 / 360) + bp (-149).
Proof.
  intros c [[p0 p1] p2] [[o0 o1] o2] Hc Hp0 Ho0 Hp1 Ho1. cbn [fst snd] in *. cbv zeta.
  set (lat := real64 p0 - real64 o0). set (y := real64 p1 - real64 o1).
  pose proof (at_most_sub 90 p0 o0 Hp0 Ho0) as Hlat. fold lat in Hlat.
  pose proof (at_most_sub 360 p1 o1 Hp1 Ho1) as Hy. fold y in Hy.
  pose proof tiny as T. pose proof huge as L. pose proof PI_bounds as PB. pose proof bp_tiny as BT. pose proof (bpow_gt_0 radix2 (-1000)) as B0.
  destruct (dsub_fin p0 o0 (proj1 Hp0) (proj1 Ho0) ltac:(fold lat; lra)) as [Fd Ed]. fold lat in Ed.
  pose proof (rnd64_err lat) as E0. rewrite <- Ed in E0. pose proof (abs_chain _ _ _ E0) as A0.
  assert (Hd : Rabs (real64 (dsub p0 o0)) <= 200) by (unfold u64 in *; lra).
  destruct (radians _ Fd Hd) as [Fr Hr]. set (rad := to_radians (dsub p0 o0)) in *.
  set (d := real64 (dsub p0 o0)) in *.
  assert (Hr2 : Rabs (real64 rad - lat * PI / 180) <= / 490000000).
  { assert (Q : Rabs (d * PI / 180 - lat * PI / 180) <= / 100000000000).
    { replace (d * PI / 180 - lat * PI / 180) with ((d - lat) * (PI / 180)) by field. rewrite Rabs_mult, (Rabs_right (PI / 180)) by lra.
      assert (Rabs (d - lat) <= / 10000000000000) by (unfold u64 in *; lra). pose proof (Rabs_pos (d - lat)). nra. }
    pose proof (abs_add _ _ _ _ _ Q Hr). lra. }
  assert (Hr3 : at_most 16 rad).
  { split; [exact Fr|]. pose proof (abs_chain _ _ _ Hr2) as A.
    assert (Rabs (lat * PI / 180) <= 4).
    { replace (lat * PI / 180) with (lat * (PI / 180)) by field. rewrite Rabs_mult, (Rabs_right (PI / 180)) by lra. pose proof (Rabs_pos lat). nra. }
    lra. }
  destruct (Hc rad Hr3) as [Fc Hcc].
  assert (B30 : bp (-30) <= / 1000000000) by (change (bp (-30)) with (/ 1073741824); lra).
  set (C := cos (lat * PI / 180)). assert (HC : Rabs C <= 1) by (apply Rabs_le, COS_bound).
  assert (Hcc2 : Rabs (real64 (c rad) - C) <= / 300000000).
  { pose proof (cos_lipschitz (real64 rad) (lat * PI / 180)) as Lc. fold C in Lc.
    pose proof (abs_add _ _ _ _ _ (Rle_trans _ _ _ Lc Hr2) Hcc). lra. }
  set (cc := real64 (c rad)) in *. pose proof (abs_chain _ _ _ Hcc2) as Acc.
  destruct (f64_of_Z_exact 40075160 ltac:(lia)) as [Fe Re]. 
  destruct (dmul_fin EARTH_EQUATOR_CIRCUMFERENCE (c rad) Fe Fc) as [Fl El].
  { change (real64 EARTH_EQUATOR_CIRCUMFERENCE) with (real64 (f64_of_Z 40075160)). rewrite Re, Rabs_mult, (Rabs_right 40075160) by lra. fold cc. lra. }
  change (real64 EARTH_EQUATOR_CIRCUMFERENCE) with (real64 (f64_of_Z 40075160)) in El. rewrite Re in El. fold cc in El.
  pose proof (rnd64_err (40075160 * cc)) as E1. rewrite <- El in E1. set (circ := real64 (dmul EARTH_EQUATOR_CIRCUMFERENCE (c rad))) in *.
  assert (Hcirc : Rabs (circ - 40075160 * C) <= 0.14).
  { assert (Q : Rabs (40075160 * cc - 40075160 * C) <= 0.135).
    { replace (40075160 * cc - 40075160 * C) with (40075160 * (cc - C)) by ring. rewrite Rabs_mult, (Rabs_right 40075160) by lra. lra. }
    assert (Rabs (40075160 * cc) <= 50000000) by (rewrite Rabs_mult, (Rabs_right 40075160) by lra; lra).
    pose proof (abs_add _ _ _ _ _ Q E1). unfold u64 in *. lra. }
  assert (Acirc : Rabs circ <= 40075161).
  { pose proof (abs_chain _ _ _ Hcirc) as A. rewrite Rabs_mult, (Rabs_right 40075160) in A by lra. lra. }
  destruct (dsub_fin p1 o1 (proj1 Hp1) (proj1 Ho1) ltac:(fold y; lra)) as [Fy Ey]. fold y in Ey.
  pose proof (rnd64_err y) as E2. rewrite <- Ey in E2. set (dy := real64 (dsub p1 o1)) in *. pose proof (abs_chain _ _ _ E2) as A2.
  assert (Hdy : Rabs dy <= 730) by (unfold u64 in *; lra).
  assert (Hm0 : Rabs (dy * circ) <= Rabs dy * 40075161) by (rewrite Rabs_mult; pose proof (Rabs_pos dy); nra).
  destruct (dmul_fin (dsub p1 o1) _ Fy Fl ltac:(fold dy; fold circ; lra)) as [Fm Em]. fold dy circ in Em.
  pose proof (rnd64_err (dy * circ)) as E3. rewrite <- Em in E3. set (m := real64 (dmul (dsub p1 o1) (dmul EARTH_EQUATOR_CIRCUMFERENCE (c rad)))) in *.
  pose proof (abs_chain _ _ _ E3) as A3.
  destruct (f64_of_Z_exact 360 ltac:(lia)) as [F3 R3].
  assert (Hm : Rabs (m / 360) = Rabs m / 360) by (unfold Rdiv; rewrite Rabs_mult, (Rabs_right (/ 360)) by lra; reflexivity).
  destruct (ddiv_fin _ (f64_of_Z 360) Fm ltac:(rewrite R3; lra)) as [Fq Eq].
  { fold m. rewrite R3, Hm. unfold u64 in *. lra. }
  fold m in Eq. rewrite R3 in Eq. pose proof (rnd64_err (m / 360)) as E4. rewrite <- Eq in E4. rewrite Hm in E4.
  set (q := ddiv (dmul (dsub p1 o1) (dmul EARTH_EQUATOR_CIRCUMFERENCE (c rad))) (f64_of_Z 360)) in *.
  pose proof (abs_chain _ _ _ E4) as A4. rewrite Hm in A4.
  assert (B127 : 1000000000000 <= bp 127). { pose proof (bpow_le radix2 60 127 ltac:(lia)) as Z. change (bp 60) with 1152921504606846976 in Z. lra. }
  destruct (cast_fin q Fq) as [Ff Ef]; [unfold u64 in *; lra|].
  change (fst (fst (gps_to_meters c (p0, p1, p2) (o0, o1, o2)))) with (f32_of_f64 q).
  split; [exact Ff|]. rewrite Ef. pose proof (rnd_err (real64 q)) as E5.
  pose proof (Rabs_pos y) as Py. pose proof (Rabs_pos dy) as Pdy.
  assert (D1 : Rabs (dy * circ - y * (40075160 * C)) <= Rabs y * 0.15 + 40100000 * bp (-1000)).
  { replace (dy * circ - y * (40075160 * C)) with ((dy - y) * circ + y * (circ - 40075160 * C)) by ring.
    eapply Rle_trans; [apply Rabs_triang|]. rewrite !Rabs_mult.
    pose proof (Rabs_pos (dy - y)). pose proof (Rabs_pos circ).
    assert (Rabs (dy - y) * Rabs circ <= (u64 * Rabs y + bp (-1000)) * 40075161) by (apply Rmult_le_compat; lra).
    assert (Rabs y * Rabs (circ - 40075160 * C) <= Rabs y * 0.14) by (apply Rmult_le_compat_l; lra). unfold u64 in *. lra. }
  pose proof (abs_add _ _ _ _ _ D1 E3) as D2.
  assert (D3 : Rabs (m / 360 - y * 40075160 * C / 360) = Rabs (m - y * (40075160 * C)) / 360).
  { replace (m / 360 - y * 40075160 * C / 360) with ((m - y * (40075160 * C)) * / 360) by field.
    rewrite Rabs_mult, (Rabs_right (/ 360)) by lra. reflexivity. }
  assert (D4 : Rabs (m / 360 - y * 40075160 * C / 360) <= Rabs y * 0.0005 + 200000 * bp (-1000)) by (rewrite D3; unfold u64 in *; lra).
  pose proof (abs_add _ _ _ _ _ (abs_add _ _ _ _ _ D4 E4) E5) as D5.
  destruct bp_149 as [B1 B2]. pose proof (bpow_gt_0 radix2 (-151)). rewrite bp_m23. unfold u64, u32 in *. lra.
Qed.

(** Correct when the origin is on the equator. *)
Lemma east_equator : forall c p o, cos_accurate c ->
  at_most 90 (fst (fst p)) -> finite64 (fst (fst o)) -> real64 (fst (fst o)) = 0 -> at_most 360 (snd (fst p)) -> at_most 360 (snd (fst o)) ->
  let dlon := real64 (snd (fst p)) - real64 (snd (fst o)) in
  let x := fst (fst (gps_to_meters c p o)) in
  finite x /\
  Rabs (real x - dlon * (40075160 * cos (real64 (fst (fst p)) * PI / 180)) / 360) <= bp (-23) * (Rabs dlon * 40075160 / 360) + bp (-149).
Proof.
  intros c p o Hc Hp Fo Ho Hp1 Ho1. assert (Ho' : at_most 90 (fst (fst o))) by (split; [exact Fo|rewrite Ho, Rabs_R0; lra]).
  pose proof (east c p o Hc Hp Ho' Hp1 Ho1) as H. cbv zeta in *. rewrite Ho, Rminus_0_r in H. rewrite <- Rmult_assoc. exact H.
Qed.

(** An accurate cosine exists. *)
Definition nearest_cos (y : f64) : f64 := f64_of (ZnearestE (cos (real64 y) * bp 40)) (-40).
Lemma nearest_cos_accurate : cos_accurate nearest_cos.
Proof.
  intros y [Fy Hy]. unfold nearest_cos, f64_of. set (v := cos (real64 y)). set (z := ZnearestE (v * bp 40)).
  assert (Hv : Rabs v <= 1) by (apply Rabs_le, COS_bound).
  pose proof (Znearest_half (fun z => negb (Z.even z)) (v * bp 40)) as Hz. change (Znearest _ (v * bp 40)) with z in Hz.
  pose proof (binary_normalize_correct 53 1024 _ _ mode_NE z (-40) false) as C. cbv zeta in C.
  assert (E : F2R (Float radix2 z (-40)) = IZR z * / 1099511627776) by reflexivity. rewrite E in C.
  change (bp 40) with 1099511627776 in *.
  assert (E1 : Rabs (IZR z * / 1099511627776 - v) <= / 2199023255552).
  { replace (IZR z * / 1099511627776 - v) with (- ((v * 1099511627776 - IZR z) * / 1099511627776)) by field.
    rewrite Rabs_Ropp, Rabs_mult, (Rabs_right (/ 1099511627776)) by lra. lra. }
  pose proof (abs_chain _ _ _ E1) as A1. pose proof huge as L. pose proof tiny as T.
  rewrite Rlt_bool_true in C by (apply rnd64_small; lra). destruct C as (C1 & C2 & _). split; [exact C2|].
  unfold real64. rewrite C1. pose proof (rnd64_err (IZR z * / 1099511627776)) as E2.
  pose proof (abs_add _ _ _ _ _ E1 E2) as E3. change (bp (-30)) with (/ 1073741824). unfold u64, rnd64 in *. lra.
Qed.

(** With any cosine that is right at zero, the east component at latitude 60 is twice what it should be. *)
Definition lat60 : gps := (f64_of_Z 60, f64_of_Z 1, f64_of_Z 0).
Definition lat60_origin : gps := (f64_of_Z 60, f64_of_Z 0, f64_of_Z 0).
Lemma east_wrong : forall c, c (B754_zero false) = f64_of_Z 1 ->
  real (fst (fst (gps_to_meters c lat60 lat60_origin))) > 111319 /\
  (real64 (snd (fst lat60)) - real64 (snd (fst lat60_origin))) * (40075160 * cos (real64 (fst (fst lat60)) * PI / 180)) / 360 < 55660.
Proof.
  intros c Hc. split.
  - unfold gps_to_meters, lat60, lat60_origin.
    assert (E : to_radians (dsub (f64_of_Z 60) (f64_of_Z 60)) = B754_zero false) by (apply B2SF_inj; vm_compute; reflexivity).
    rewrite E, Hc. cbn [fst].
    set (x := f32_of_f64 _). assert (Ex : B2SF x = SpecFloat.S754_finite false 14248946 (-7)) by (vm_compute; reflexivity).
    assert (Er : real x = IZR 14248946 * / 128).
    { unfold real. destruct x as [s|s| |s m e v]; try discriminate Ex. cbn in Ex. injection Ex as -> -> ->. reflexivity. }
    rewrite Er. lra.
  - cbn [fst snd lat60 lat60_origin].
    rewrite (proj2 (f64_of_Z_exact 60 ltac:(lia))), (proj2 (f64_of_Z_exact 1 ltac:(lia))), (proj2 (f64_of_Z_exact 0 ltac:(lia))).
    replace (60 * PI / 180) with (PI / 3) by field. rewrite cos_PI3. lra.
Qed.
