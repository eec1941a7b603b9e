(** Facts about f32: an order embedding of the non-NaN floats in R, and what each
    operation does under it. *)
From Coq Require Import ZArith List Bool Reals Lra Lia.
From Flocq Require Import Core BinarySingleNaN.
From Verif Require Import Base F32.
Open Scope R_scope.

Notation fexp32 := (SpecFloat.fexp 24 128).
Notation rnd := (round radix2 fexp32 ZnearestE).
Notation bp := (bpow radix2).

#[global] Arguments bpow : simpl never.
#[global] Instance valid_fexp32 : Valid_exp fexp32 := fexp_correct 24 128 _.
#[global] Instance mono_fexp32 : Monotone_exp fexp32 := FLT_exp_monotone (-149) 24.

(** infinities are sent just above every finite float *)
Definition ext (x : f32) : R :=
  match x with
  | B754_infinity false => bp 128
  | B754_infinity true => - bp 128
  | _ => B2R x
  end.

Definition clamp (r : R) : R := Rmax (- bp 128) (Rmin (bp 128) r).

Lemma bp128_pos : 0 < bp 128. Proof. apply bpow_gt_0. Qed.

Lemma B2R_lt_emax : forall x : f32, Rabs (B2R x) < bp 128.
Proof. intro x. apply abs_B2R_lt_emax. Qed.

Lemma ext_finite : forall x : f32, is_finite x = true -> ext x = B2R x.
Proof. intros [s|[|]| |s m e H]; simpl; intros; try reflexivity; discriminate. Qed.

Lemma ext_bounds : forall x : f32, - bp 128 <= ext x <= bp 128.
Proof.
  intro x. pose proof bp128_pos.
  destruct x as [s|[|]| |s m e H0]; unfold ext; try (simpl B2R; lra).
  pose proof (B2R_lt_emax (B754_finite s m e H0)) as Hb.
  apply Rabs_lt_inv in Hb. lra.
Qed.

Lemma is_finite_not_nan : forall x : f32, is_finite x = true -> is_nan x = false.
Proof. intros [s|s| |s m e H]; simpl; congruence. Qed.

Lemma Bcompare_ext : forall x y : f32, is_nan x = false -> is_nan y = false ->
  Bcompare x y = Some (Rcompare (ext x) (ext y)).
Proof.
  intros x y Hx Hy.
  destruct (is_finite x) eqn:Fx, (is_finite y) eqn:Fy.
  - rewrite !ext_finite by assumption. now apply Bcompare_correct.
  - pose proof (B2R_lt_emax x) as Hb; apply Rabs_lt_inv in Hb.
    rewrite (ext_finite x) by assumption.
    destruct y as [s|[|]| |s m e H]; try discriminate; unfold ext.
    + rewrite Rcompare_Gt by lra. destruct x as [s|[|]| |[|] m e H]; try discriminate; reflexivity.
    + rewrite Rcompare_Lt by lra. destruct x as [s|[|]| |[|] m e H]; try discriminate; reflexivity.
  - pose proof (B2R_lt_emax y) as Hb; apply Rabs_lt_inv in Hb.
    rewrite (ext_finite y) by assumption.
    destruct x as [s|[|]| |s m e H]; try discriminate; unfold ext.
    + rewrite Rcompare_Lt by lra. destruct y as [s|[|]| |[|] m e H]; try discriminate; reflexivity.
    + rewrite Rcompare_Gt by lra. destruct y as [s|[|]| |[|] m e H]; try discriminate; reflexivity.
  - pose proof bp128_pos.
    destruct x as [s|[|]| |s m e H0]; try discriminate;
    destruct y as [s'|[|]| |s' m' e' H0']; try discriminate; unfold ext.
    + rewrite Rcompare_Eq by lra. reflexivity.
    + rewrite Rcompare_Lt by lra. reflexivity.
    + rewrite Rcompare_Gt by lra. reflexivity.
    + rewrite Rcompare_Eq by lra. reflexivity.
Qed.

Lemma fleb_ext : forall x y : f32, is_nan x = false -> is_nan y = false ->
  fleb x y = Rle_bool (ext x) (ext y).
Proof.
  intros x y Hx Hy. pose proof (Bcompare_ext x y Hx Hy) as H.
  unfold fleb, Bleb, SpecFloat.SFleb. unfold Bcompare in H. rewrite H.
  unfold Rle_bool. now destruct Rcompare.
Qed.

Lemma fltb_ext : forall x y : f32, is_nan x = false -> is_nan y = false ->
  fltb x y = Rlt_bool (ext x) (ext y).
Proof.
  intros x y Hx Hy. pose proof (Bcompare_ext x y Hx Hy) as H.
  unfold fltb, Bltb, SpecFloat.SFltb. unfold Bcompare in H. rewrite H.
  unfold Rlt_bool. now destruct Rcompare.
Qed.

Lemma feqb_ext : forall x y : f32, is_nan x = false -> is_nan y = false ->
  feqb x y = Req_bool (ext x) (ext y).
Proof.
  intros x y Hx Hy. pose proof (Bcompare_ext x y Hx Hy) as H.
  unfold feqb, Beqb, SpecFloat.SFeqb. unfold Bcompare in H. rewrite H.
  unfold Req_bool. now destruct Rcompare.
Qed.

Lemma fleb_nan_l : forall x y : f32, is_nan x = true -> fleb x y = false.
Proof. intros [| | |] y H; try discriminate. reflexivity. Qed.
Lemma fleb_nan_r : forall x y : f32, is_nan y = true -> fleb x y = false.
Proof. intros x [| | |] H; try discriminate. destruct x as [|[|]| |[|]]; reflexivity. Qed.
Lemma fltb_nan_l : forall x y : f32, is_nan x = true -> fltb x y = false.
Proof. intros [| | |] y H; try discriminate. reflexivity. Qed.
Lemma fltb_nan_r : forall x y : f32, is_nan y = true -> fltb x y = false.
Proof. intros x [| | |] H; try discriminate. destruct x as [|[|]| |[|]]; reflexivity. Qed.
Lemma feqb_nan_l : forall x y : f32, is_nan x = true -> feqb x y = false.
Proof. intros [| | |] y H; try discriminate. reflexivity. Qed.
Lemma feqb_nan_r : forall x y : f32, is_nan y = true -> feqb x y = false.
Proof. intros x [| | |] H; try discriminate. destruct x as [|[|]| |[|]]; reflexivity. Qed.

Lemma fleb_iff : forall x y : f32,
  fleb x y = true <-> is_nan x = false /\ is_nan y = false /\ ext x <= ext y.
Proof.
  intros x y. destruct (is_nan x) eqn:Hx.
  { rewrite fleb_nan_l by assumption. intuition discriminate. }
  destruct (is_nan y) eqn:Hy.
  { rewrite fleb_nan_r by assumption. intuition discriminate. }
  rewrite fleb_ext by assumption. case Rle_bool_spec; intro H; intuition; try discriminate; lra.
Qed.

Lemma fltb_iff : forall x y : f32,
  fltb x y = true <-> is_nan x = false /\ is_nan y = false /\ ext x < ext y.
Proof.
  intros x y. destruct (is_nan x) eqn:Hx.
  { rewrite fltb_nan_l by assumption. intuition discriminate. }
  destruct (is_nan y) eqn:Hy.
  { rewrite fltb_nan_r by assumption. intuition discriminate. }
  rewrite fltb_ext by assumption. case Rlt_bool_spec; intro H; intuition; try discriminate; lra.
Qed.

Lemma feqb_iff : forall x y : f32,
  feqb x y = true <-> is_nan x = false /\ is_nan y = false /\ ext x = ext y.
Proof.
  intros x y. destruct (is_nan x) eqn:Hx.
  { rewrite feqb_nan_l by assumption. intuition discriminate. }
  destruct (is_nan y) eqn:Hy.
  { rewrite feqb_nan_r by assumption. intuition discriminate. }
  rewrite feqb_ext by assumption. case Req_bool_spec; intro H; intuition; try discriminate; lra.
Qed.

Lemma fltb_false_iff : forall x y : f32, is_nan x = false -> is_nan y = false ->
  (fltb x y = false <-> ext y <= ext x).
Proof.
  intros x y Hx Hy. rewrite fltb_ext by assumption.
  case Rlt_bool_spec; intro H; intuition; try discriminate; lra.
Qed.

(** ** The operations under the embedding *)

Lemma rnd_le : forall a b, a <= b -> rnd a <= rnd b.
Proof. intros. apply round_le; auto with typeclass_instances. Qed.

Lemma rnd_0 : rnd 0 = 0.
Proof. apply round_0; auto with typeclass_instances. Qed.

Lemma clamp_le : forall a b, a <= b -> clamp a <= clamp b.
Proof.
  intros a b H. unfold clamp. apply Rle_max_compat_l. apply Rle_min_compat_l. assumption.
Qed.

Lemma clamp_id : forall r, - bp 128 <= r <= bp 128 -> clamp r = r.
Proof. intros r H. unfold clamp. rewrite Rmin_right by lra. rewrite Rmax_right; lra. Qed.

Lemma clamp_lt_id : forall r, Rabs r < bp 128 -> clamp r = r.
Proof. intros r H. apply Rabs_lt_inv in H. apply clamp_id. lra. Qed.

Lemma clamp_hi : forall r, bp 128 <= r -> clamp r = bp 128.
Proof. intros r H. unfold clamp. pose proof bp128_pos. rewrite Rmin_left by lra. rewrite Rmax_right; lra. Qed.
Lemma clamp_lo : forall r, r <= - bp 128 -> clamp r = - bp 128.
Proof. intros r H. unfold clamp. pose proof bp128_pos. rewrite Rmin_right by lra. rewrite Rmax_left; lra. Qed.

Lemma clamp_bounds : forall r, - bp 128 <= clamp r <= bp 128.
Proof.
  intro r. unfold clamp. pose proof bp128_pos. split. apply Rmax_l.
  apply Rmax_lub. lra. apply Rmin_l.
Qed.

Lemma overflow_ext : forall (z : f32) s r,
  B2SF z = binary_overflow 24 128 mode_NE s ->
  bp 128 <= Rabs (rnd r) ->
  (s = true -> r <= 0) -> (s = false -> 0 <= r) ->
  is_nan z = false /\ ext z = clamp (rnd r).
Proof.
  intros z s r Hz Hr Ht Hf.
  destruct z as [s'|s'| |s' m e H]; try discriminate Hz.
  cbv in Hz. injection Hz as ->. split; [reflexivity|].
  destruct s; unfold ext.
  - specialize (Ht eq_refl). pose proof (rnd_le _ _ Ht) as H. rewrite rnd_0 in H.
    rewrite Rabs_left1 in Hr by assumption. rewrite clamp_lo; lra.
  - specialize (Hf eq_refl). pose proof (rnd_le _ _ Hf) as H. rewrite rnd_0 in H.
    rewrite Rabs_pos_eq in Hr by assumption. rewrite clamp_hi; lra.
Qed.

Lemma Bsign_true_le : forall x : f32, is_nan x = false -> Bsign x = true -> ext x <= 0.
Proof.
  intros [s|[|]| |s m e H] Hn; simpl; intros; subst; try lra; try discriminate.
  - pose proof bp128_pos. lra.
  - apply F2R_le_0. simpl. lia.
Qed.
Lemma Bsign_false_ge : forall x : f32, is_nan x = false -> Bsign x = false -> 0 <= ext x.
Proof.
  intros [s|[|]| |s m e H] Hn; simpl; intros; subst; try lra; try discriminate.
  - pose proof bp128_pos. lra.
  - apply F2R_ge_0. simpl. lia.
Qed.
Lemma ext_pos_sign : forall x : f32, is_nan x = false -> 0 < ext x -> Bsign x = false.
Proof.
  intros x Hn H. destruct (Bsign x) eqn:E; [|reflexivity].
  apply Bsign_true_le in E; [lra|assumption].
Qed.

Lemma fadd_ext : forall x y : f32, is_finite x = true -> is_finite y = true ->
  is_nan (fadd x y) = false /\ ext (fadd x y) = clamp (rnd (B2R x + B2R y)).
Proof.
  intros x y Fx Fy. pose proof (Bplus_correct 24 128 _ _ mode_NE x y Fx Fy) as H.
  simpl round_mode in H. unfold fadd. revert H. case Rlt_bool_spec; intros Hlt H.
  - destruct H as (HR & HF & _). split. now apply is_finite_not_nan.
    rewrite ext_finite by assumption. rewrite HR. symmetry. now apply clamp_lt_id.
  - destruct H as (HS & Hs). apply overflow_ext with (s := Bsign x); try assumption.
    + intro Ht. rewrite <- (ext_finite x), <- (ext_finite y) by assumption.
      pose proof (Bsign_true_le x (is_finite_not_nan _ Fx) Ht).
      rewrite Ht in Hs. pose proof (Bsign_true_le y (is_finite_not_nan _ Fy) (eq_sym Hs)). lra.
    + intro Ht. rewrite <- (ext_finite x), <- (ext_finite y) by assumption.
      pose proof (Bsign_false_ge x (is_finite_not_nan _ Fx) Ht).
      rewrite Ht in Hs. pose proof (Bsign_false_ge y (is_finite_not_nan _ Fy) (eq_sym Hs)). lra.
Qed.

Lemma fsub_ext : forall x y : f32, is_finite x = true -> is_finite y = true ->
  is_nan (fsub x y) = false /\ ext (fsub x y) = clamp (rnd (B2R x - B2R y)).
Proof.
  intros x y Fx Fy. pose proof (Bminus_correct 24 128 _ _ mode_NE x y Fx Fy) as H.
  simpl round_mode in H. unfold fsub. revert H. case Rlt_bool_spec; intros Hlt H.
  - destruct H as (HR & HF & _). split. now apply is_finite_not_nan.
    rewrite ext_finite by assumption. rewrite HR. symmetry. now apply clamp_lt_id.
  - destruct H as (HS & Hs). apply overflow_ext with (s := Bsign x); try assumption.
    + intro Ht. rewrite <- (ext_finite x), <- (ext_finite y) by assumption.
      pose proof (Bsign_true_le x (is_finite_not_nan _ Fx) Ht).
      rewrite Ht in Hs. symmetry in Hs. apply negb_true_iff in Hs.
      pose proof (Bsign_false_ge y (is_finite_not_nan _ Fy) Hs). lra.
    + intro Ht. rewrite <- (ext_finite x), <- (ext_finite y) by assumption.
      pose proof (Bsign_false_ge x (is_finite_not_nan _ Fx) Ht).
      rewrite Ht in Hs. symmetry in Hs. apply negb_false_iff in Hs.
      pose proof (Bsign_true_le y (is_finite_not_nan _ Fy) Hs). lra.
Qed.

Lemma xorb_mult_sign : forall (x y : f32), is_nan x = false -> is_nan y = false ->
  (xorb (Bsign x) (Bsign y) = true -> ext x * ext y <= 0) /\
  (xorb (Bsign x) (Bsign y) = false -> 0 <= ext x * ext y).
Proof.
  intros x y Nx Ny.
  destruct (Bsign x) eqn:Sx, (Bsign y) eqn:Sy; simpl; split; intro; try discriminate;
  repeat match goal with
  | H : Bsign ?z = true |- _ => apply Bsign_true_le in H; [|assumption]
  | H : Bsign ?z = false |- _ => apply Bsign_false_ge in H; [|assumption]
  end; nra.
Qed.

Lemma fmul_ext : forall x y : f32, is_finite x = true -> is_finite y = true ->
  is_nan (fmul x y) = false /\ ext (fmul x y) = clamp (rnd (B2R x * B2R y)).
Proof.
  intros x y Fx Fy. pose proof (Bmult_correct 24 128 _ _ mode_NE x y) as H.
  simpl round_mode in H. unfold fmul. revert H. case Rlt_bool_spec; intros Hlt H.
  - destruct H as (HR & HF & _). rewrite Fx, Fy in HF. simpl in HF.
    split. now apply is_finite_not_nan.
    rewrite ext_finite by assumption. rewrite HR. symmetry. now apply clamp_lt_id.
  - apply overflow_ext with (s := xorb (Bsign x) (Bsign y)); try assumption;
    rewrite <- (ext_finite x), <- (ext_finite y) by assumption;
    apply xorb_mult_sign; now apply is_finite_not_nan.
Qed.

Lemma fdiv_ext : forall x y : f32, is_finite x = true -> is_finite y = true -> B2R y <> 0 ->
  is_nan (fdiv x y) = false /\ ext (fdiv x y) = clamp (rnd (B2R x / B2R y)).
Proof.
  intros x y Fx Fy Hy0. pose proof (Bdiv_correct 24 128 _ _ mode_NE x y Hy0) as H.
  simpl round_mode in H. unfold fdiv. revert H. case Rlt_bool_spec; intros Hlt H.
  - destruct H as (HR & HF & _). rewrite Fx in HF.
    split. now apply is_finite_not_nan.
    rewrite ext_finite by assumption. rewrite HR. symmetry. now apply clamp_lt_id.
  - destruct (xorb_mult_sign x y) as [Ht Hf]; try now apply is_finite_not_nan.
    rewrite (ext_finite x), (ext_finite y) in Ht, Hf by assumption.
    assert (E : B2R x / B2R y = (B2R x * B2R y) * (/ B2R y * / B2R y)) by (field; assumption).
    assert (P : 0 <= / B2R y * / B2R y) by (apply Rle_0_sqr).
    apply overflow_ext with (s := xorb (Bsign x) (Bsign y)); try assumption; intro Hs; rewrite E.
    + specialize (Ht Hs). nra.
    + specialize (Hf Hs). nra.
Qed.

(** Exact results when nothing overflows. *)
Lemma ext_lt_finite : forall x : f32, is_nan x = false -> Rabs (ext x) < bp 128 -> is_finite x = true.
Proof.
  intros [s|[|]| |s m e H] Hn Hl; simpl in *; try reflexivity; try discriminate; exfalso;
  pose proof bp128_pos; apply Rabs_lt_inv in Hl; lra.
Qed.

Lemma clamp_abs_lt : forall r, Rabs (clamp r) < bp 128 -> Rabs r < bp 128.
Proof.
  intros r H. apply Rabs_lt_inv in H. pose proof bp128_pos.
  destruct (Rle_or_lt (bp 128) r). { rewrite clamp_hi in H by assumption. lra. }
  destruct (Rle_or_lt r (- bp 128)). { rewrite clamp_lo in H by assumption. lra. }
  apply Rabs_lt. lra.
Qed.

Lemma from_clamp : forall (z : f32) r, is_nan z = false -> ext z = clamp (rnd r) ->
  Rabs (rnd r) < bp 128 -> is_finite z = true /\ B2R z = rnd r.
Proof.
  intros z r Hn He Hb. rewrite clamp_lt_id in He by assumption.
  assert (F : is_finite z = true) by (apply ext_lt_finite; [assumption | now rewrite He]).
  split; [assumption|]. now rewrite <- ext_finite.
Qed.

Lemma fadd_fin : forall x y : f32, is_finite x = true -> is_finite y = true ->
  Rabs (rnd (B2R x + B2R y)) < bp 128 ->
  is_finite (fadd x y) = true /\ B2R (fadd x y) = rnd (B2R x + B2R y).
Proof. intros x y Fx Fy H. destruct (fadd_ext x y Fx Fy). now apply from_clamp. Qed.
Lemma fsub_fin : forall x y : f32, is_finite x = true -> is_finite y = true ->
  Rabs (rnd (B2R x - B2R y)) < bp 128 ->
  is_finite (fsub x y) = true /\ B2R (fsub x y) = rnd (B2R x - B2R y).
Proof. intros x y Fx Fy H. destruct (fsub_ext x y Fx Fy). now apply from_clamp. Qed.
Lemma fmul_fin : forall x y : f32, is_finite x = true -> is_finite y = true ->
  Rabs (rnd (B2R x * B2R y)) < bp 128 ->
  is_finite (fmul x y) = true /\ B2R (fmul x y) = rnd (B2R x * B2R y).
Proof. intros x y Fx Fy H. destruct (fmul_ext x y Fx Fy). now apply from_clamp. Qed.
Lemma fdiv_fin : forall x y : f32, is_finite x = true -> is_finite y = true -> B2R y <> 0 ->
  Rabs (rnd (B2R x / B2R y)) < bp 128 ->
  is_finite (fdiv x y) = true /\ B2R (fdiv x y) = rnd (B2R x / B2R y).
Proof. intros x y Fx Fy Hy H. destruct (fdiv_ext x y Fx Fy Hy). now apply from_clamp. Qed.

(** Bounds through rounding: if |r| <= bp e with e < 128 then |rnd r| <= bp e. *)
Lemma rnd_abs_le_bp : forall r e, (-149 <= e)%Z -> Rabs r <= bp e -> Rabs (rnd r) <= bp e.
Proof.
  intros r e He H. apply abs_round_le_generic; auto with typeclass_instances.
  apply generic_format_bpow. unfold SpecFloat.fexp, SpecFloat.emin. lia.
Qed.

Lemma rnd_abs_lt_128 : forall r, Rabs r <= bp 127 -> Rabs (rnd r) < bp 128.
Proof.
  intros r H. apply Rle_lt_trans with (bp 127). apply rnd_abs_le_bp; [lia|assumption].
  apply bpow_lt. lia.
Qed.

(** Integers up to 2^24 are exact. *)
Lemma format_IZR : forall n, (Z.abs n <= 2 ^ 24)%Z -> generic_format radix2 fexp32 (IZR n).
Proof.
  intros n Hn.
  change (generic_format radix2 (FLT_exp (-149) 24) (IZR n)).
  destruct (Z.eq_dec (Z.abs n) (2 ^ 24)) as [E|E].
  - assert (H : generic_format radix2 (FLT_exp (-149) 24) (bp 24)).
    { apply generic_format_bpow. unfold FLT_exp. lia. }
    replace (IZR n) with (if (0 <=? n)%Z then bp 24 else - bp 24).
    { destruct (0 <=? n)%Z. assumption. now apply generic_format_opp. }
    change (bp 24) with (IZR (2 ^ 24)). destruct (Z.leb_spec 0 n).
    + f_equal. lia.
    + rewrite <- opp_IZR. f_equal. lia.
  - apply generic_format_FLT. exists (Float radix2 n 0).
    + unfold F2R. simpl. change (bp 0) with 1. ring.
    + simpl. change (Z.pow_pos 2 24) with (2 ^ 24)%Z. lia.
    + simpl. lia.
Qed.

Lemma rnd_IZR : forall n, (Z.abs n <= 2 ^ 24)%Z -> rnd (IZR n) = IZR n.
Proof. intros. apply round_generic; auto with typeclass_instances. now apply format_IZR. Qed.

Lemma f32_of_Z_gen : forall z, Rabs (rnd (IZR z)) < bp 128 ->
  is_finite (f32_of_Z z) = true /\ B2R (f32_of_Z z) = rnd (IZR z).
Proof.
  intros z H. pose proof (binary_normalize_correct 24 128 _ _ mode_NE z 0 false) as C.
  cbv zeta in C. simpl round_mode in C.
  assert (E : F2R (Float radix2 z 0) = IZR z) by (unfold F2R; simpl; change (bp 0) with 1; ring).
  rewrite E in C. rewrite Rlt_bool_true in C by assumption.
  unfold f32_of_Z. tauto.
Qed.

Lemma f32_of_Z_exact : forall z, (Z.abs z <= 2 ^ 24)%Z ->
  is_finite (f32_of_Z z) = true /\ B2R (f32_of_Z z) = IZR z.
Proof.
  intros z H. rewrite <- (rnd_IZR z H). apply f32_of_Z_gen. rewrite rnd_IZR by assumption.
  rewrite <- abs_IZR. change (bp 128) with (IZR (2 ^ 128)). apply IZR_lt. lia.
Qed.

Lemma f32_of_Z_isize : forall z, (Z.abs z <= 2 ^ 63)%Z ->
  is_finite (f32_of_Z z) = true /\ B2R (f32_of_Z z) = rnd (IZR z).
Proof.
  intros z H. apply f32_of_Z_gen. apply rnd_abs_lt_128.
  rewrite <- abs_IZR. change (bp 127) with (IZR (2 ^ 127)). apply IZR_le. lia.
Qed.

(** ** Rounding to integers *)
Definition FIX_rnd (r : R) (f : R -> Z) : round radix2 (FIX_exp 0) f r = IZR (f r).
Proof. unfold round, scaled_mantissa, cexp, FIX_exp, F2R. simpl. change (bp 0) with 1. change (bp (-0)) with 1. now rewrite !Rmult_1_r. Qed.

Lemma fround_fin : forall x : f32, is_finite x = true ->
  is_finite (fround x) = true /\ B2R (fround x) = IZR (ZnearestA (B2R x)).
Proof.
  intros x Fx. destruct (Bnearbyint_correct 24 128 _ mode_NA x) as (H1 & H2 & _).
  unfold fround. rewrite H2. split; [assumption|]. rewrite H1. apply FIX_rnd.
Qed.
Lemma ffloor_fin : forall x : f32, is_finite x = true ->
  is_finite (ffloor x) = true /\ B2R (ffloor x) = IZR (Zfloor (B2R x)).
Proof.
  intros x Fx. destruct (Bnearbyint_correct 24 128 _ mode_DN x) as (H1 & H2 & _).
  unfold ffloor. rewrite H2. split; [assumption|]. rewrite H1. apply FIX_rnd.
Qed.
Lemma fceil_fin : forall x : f32, is_finite x = true ->
  is_finite (fceil x) = true /\ B2R (fceil x) = IZR (Zceil (B2R x)).
Proof.
  intros x Fx. destruct (Bnearbyint_correct 24 128 _ mode_UP x) as (H1 & H2 & _).
  unfold fceil. rewrite H2. split; [assumption|]. rewrite H1. apply FIX_rnd.
Qed.

Lemma Btrunc_IZR : forall (x : f32) n, B2R x = IZR n -> Btrunc x = n.
Proof.
  intros x n H. apply eq_IZR. rewrite (Btrunc_correct 24 128 _ x). rewrite FIX_rnd, H. now rewrite Ztrunc_IZR.
Qed.

Definition sat (n : Z) : Z := Z.max isize_min (Z.min isize_max n).

Lemma f32_to_isize_finite : forall x : f32, is_finite x = true -> f32_to_isize x = sat (Btrunc x).
Proof. intros [s|s| |s m e H] F; try discriminate; reflexivity. Qed.

(** [round() as isize] of a non-NaN float is the saturated nearest integer of its
    embedding. *)
Lemma ZnearestA_le : forall a b, a <= b -> (ZnearestA a <= ZnearestA b)%Z.
Proof. intros. apply (@Zrnd_le ZnearestA (valid_rnd_N _)). assumption. Qed.

Lemma round_to_isize : forall x : f32, is_nan x = false ->
  f32_to_isize (fround x) = sat (ZnearestA (ext x)).
Proof.
  intros x Hn. destruct (is_finite x) eqn:F.
  - destruct (fround_fin x F) as [F' E]. rewrite f32_to_isize_finite by assumption.
    rewrite (Btrunc_IZR _ _ E). now rewrite ext_finite.
  - assert (V : forall n, ZnearestA (IZR n) = n).
    { intro n. apply Znearest_imp. unfold Rminus. rewrite Rplus_opp_r, Rabs_R0. lra. }
    destruct x as [s|[|]| |s m e H]; try discriminate; unfold ext; simpl f32_to_isize.
    + change (- bp 128) with (- IZR (2 ^ 128)). rewrite <- opp_IZR, V. reflexivity.
    + change (bp 128) with (IZR (2 ^ 128)). rewrite V. reflexivity.
Qed.

Lemma sat_le : forall a b, (a <= b)%Z -> (sat a <= sat b)%Z.
Proof. intros. unfold sat. lia. Qed.
Lemma sat_in : forall a, in_isize (sat a) = true.
Proof.
  intro a. unfold sat, in_isize. apply andb_true_iff.
  assert (isize_min < isize_max)%Z by reflexivity. split; apply Z.leb_le; lia.
Qed.
Lemma sat_id : forall a, in_isize a = true -> sat a = a.
Proof. intros a H. unfold in_isize in H. apply andb_true_iff in H. unfold sat. lia. Qed.

(** ** Infinite and NaN operands *)
Lemma fsub_nonnan_inf_l : forall s (y : f32), is_finite y = true -> fsub (B754_infinity s) y = B754_infinity s.
Proof. intros s [s'|s'| |s' m e H] F; try discriminate; reflexivity. Qed.
Lemma fdiv_inf_l : forall s (y : f32), is_finite y = true -> 0 < B2R y ->
  fdiv (B754_infinity s) y = B754_infinity s.
Proof.
  intros s y F P. destruct y as [s'|s'| |s' m e H]; try discriminate; simpl in P; try lra.
  unfold fdiv. simpl. destruct s'; [|now rewrite xorb_false_r].
  exfalso. apply Rlt_not_le in P. apply P. apply F2R_le_0. simpl. lia.
Qed.
