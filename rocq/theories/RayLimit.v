(** f32 rays with a length limit. *)
From Coq Require Import ZArith List Bool Reals Lra Lia Psatz.
From Flocq Require Import Core BinarySingleNaN.
From Verif Require Import Base F32 FloatFacts RoundError Arith Geom RayCaster Spec MathProofs ConverterProofs BoundsProofs RayProofs CastProofs RayRange RayReach IntegrateRange.
Open Scope R_scope.

(** ** Sums of squares *)
Definition sumsq (l : list R) : R := fold_right (fun x s => x * x + s) 0 l.
Lemma sumsq_pos : forall l, 0 <= sumsq l.
Proof. induction l as [|x l IH]; cbn; [lra|]. fold (sumsq l). nra. Qed.

Lemma sq_grow : forall x y h, 0 <= h -> Rabs x <= Rabs y + h -> x * x <= y * y + 2 * h * Rabs y + h * h.
Proof.
  intros x y h Hh H. assert (A : x * x = Rabs x * Rabs x) by (rewrite <- Rabs_mult; symmetry; apply Rabs_pos_eq; nra).
  assert (B : y * y = Rabs y * Rabs y) by (rewrite <- Rabs_mult; symmetry; apply Rabs_pos_eq; nra).
  rewrite A, B. pose proof (Rabs_pos x). pose proof (Rabs_pos y). nra.
Qed.
Lemma sumsq_near : forall (l l' : list R) h A, (length l = 2 \/ length l = 3)%nat -> length l' = length l -> 0 <= h -> 0 <= A ->
  (forall i, (i < length l)%nat -> Rabs (nth i l 0) <= Rabs (nth i l' 0) + h) -> sumsq l' <= A * A ->
  sumsq l <= (A + 7 / 4 * h) * (A + 7 / 4 * h).
Proof.
  intros l l' h A L L' Hh HA H S.
  assert (G : forall a b c, 0 <= a -> 0 <= b -> 0 <= c -> a * a + b * b + c * c <= A * A -> a + b + c <= 7 / 4 * A).
  { intros a b c Pa Pb Pc Q. apply Rsqr_incr_0_var; [|lra]. unfold Rsqr.
    assert ((a + b + c) * (a + b + c) = 3 * (a * a + b * b + c * c) - ((a - b) * (a - b) + (a - c) * (a - c) + (b - c) * (b - c))) by ring.
    pose proof (Rle_0_sqr (a - b)). pose proof (Rle_0_sqr (a - c)). pose proof (Rle_0_sqr (b - c)). pose proof (Rle_0_sqr A). unfold Rsqr in *. lra. }
  assert (SQ : forall x, x * x = Rabs x * Rabs x) by (intro x; rewrite <- Rabs_mult; symmetry; apply Rabs_pos_eq; nra).
  destruct l as [|x1 [|x2 [|x3 [|]]]]; cbn in L; try lia; destruct l' as [|y1 [|y2 [|y3 [|]]]]; cbn in L'; try lia; unfold sumsq in *; cbn [fold_right] in *.
  - pose proof (sq_grow _ _ h Hh (H 0%nat ltac:(cbn; lia))) as H1. pose proof (sq_grow _ _ h Hh (H 1%nat ltac:(cbn; lia))) as H2. cbn [nth] in *.
    assert (B : Rabs y1 + Rabs y2 + 0 <= 7 / 4 * A). { apply G; try apply Rabs_pos; try lra. rewrite <- !SQ. lra. }
    assert (h * (Rabs y1 + Rabs y2 + 0) <= h * (7 / 4 * A)) by (apply Rmult_le_compat_l; lra). nra.
  - pose proof (sq_grow _ _ h Hh (H 0%nat ltac:(cbn; lia))) as H1. pose proof (sq_grow _ _ h Hh (H 1%nat ltac:(cbn; lia))) as H2.
    pose proof (sq_grow _ _ h Hh (H 2%nat ltac:(cbn; lia))) as H3. cbn [nth] in *.
    assert (B : Rabs y1 + Rabs y2 + Rabs y3 <= 7 / 4 * A). { apply G; try apply Rabs_pos. rewrite <- !SQ. lra. }
    assert (h * (Rabs y1 + Rabs y2 + Rabs y3) <= h * (7 / 4 * A)) by (apply Rmult_le_compat_l; lra). nra.
Qed.

(** The computed square of the length. *)
Lemma square_close : forall M (v : point), (length v = 2 \/ length v = 3)%nat -> (-70 <= M <= 60)%Z ->
  (forall i, (i < length v)%nat -> is_finite (nth i v f0) = true /\ Rabs (B2R (nth i v f0)) <= bp M) ->
  is_finite (square_length v) = true /\
  Rabs (B2R (square_length v) - sumsq (map B2R v)) <= 4 * u32 * sumsq (map B2R v) + 4 * bp (-150).
Proof.
  intros M v Hv HM H. destruct (square_bounds M v Hv HM H) as (F & _ & _). split; [assumption|].
  assert (U : u32 = / 16777216) by reflexivity. pose proof (bpow_gt_0 radix2 (-150)) as T. set (ty := bp (-150)) in *.
  assert (AD : forall (x y : f32), is_finite (fadd x y) = true -> 0 <= B2R x + B2R y ->
     is_finite x = true /\ is_finite y = true /\ Rabs (B2R (fadd x y) - (B2R x + B2R y)) <= u32 * (B2R x + B2R y)).
  { intros x y Fa P. destruct (fadd_val x y Fa) as (Fx & Fy & E). split; [assumption|]. split; [assumption|]. rewrite E.
    pose proof (rnd_add_rel x y) as Q. rewrite (Rabs_pos_eq (B2R x + B2R y)) in Q by assumption. exact Q. }
  assert (MU : forall x : f32, is_finite (fmul x x) = true -> 0 <= B2R (fmul x x) /\ Rabs (B2R (fmul x x) - B2R x * B2R x) <= u32 * (B2R x * B2R x) + ty).
  { intros x Fm. destruct (fmul_val x x Fm) as (Fx & _ & E). rewrite E. split; [apply rnd_nonneg; nra|].
    pose proof (rnd_err (B2R x * B2R x)) as Q. rewrite (Rabs_pos_eq (B2R x * B2R x)) in Q by nra. exact Q. }
  assert (Z0 : forall a : f32, is_finite (fadd f0 a) = true -> is_finite a = true /\ B2R (fadd f0 a) = B2R a).
  { intros a Fa. destruct (fadd_val f0 a Fa) as (_ & F1 & E). split; [assumption|]. rewrite E. change (B2R f0) with 0. now rewrite Rplus_0_l, rnd_float. }
  clear H HM M. destruct v as [|x [|y [|z [|]]]]; cbn in Hv; try lia; cbn [square_length] in *; unfold sumsq; cbn [map fold_right].
  - destruct (Z0 _ F) as [F1 ->]. assert (Fs : is_finite (fmul x x) = true /\ is_finite (fmul y y) = true) by (destruct (fadd_val _ _ F1) as (? & ? & _); auto).
    destruct Fs as [Fx Fy]. destruct (MU x Fx) as [Px Ex]. destruct (MU y Fy) as [Py Ey]. destruct (AD _ _ F1 ltac:(lra)) as (_ & _ & E1).
    set (X := B2R x * B2R x) in *. set (Y := B2R y * B2R y) in *. assert (0 <= X) by (unfold X; nra). assert (0 <= Y) by (unfold Y; nra).
    rewrite U in *. apply Rabs_le_inv in Ex, Ey, E1. clearbody X Y ty. apply Rabs_le. lra.
  - destruct (Z0 _ F) as [F1 ->]. assert (Fs : is_finite (fadd (fmul x x) (fmul y y)) = true /\ is_finite (fmul z z) = true) by (destruct (fadd_val _ _ F1) as (? & ? & _); auto).
    destruct Fs as [F2 Fz]. assert (Fs : is_finite (fmul x x) = true /\ is_finite (fmul y y) = true) by (destruct (fadd_val _ _ F2) as (? & ? & _); auto).
    destruct Fs as [Fx Fy]. destruct (MU x Fx) as [Px Ex]. destruct (MU y Fy) as [Py Ey]. destruct (MU z Fz) as [Pz Ez]. destruct (AD _ _ F2 ltac:(lra)) as (_ & _ & E2).
    assert (P2 : 0 <= B2R (fadd (fmul x x) (fmul y y))) by (rewrite U in E2; apply Rabs_le_inv in E2; lra).
    destruct (AD _ _ F1 ltac:(lra)) as (_ & _ & E1).
    set (X := B2R x * B2R x) in *. set (Y := B2R y * B2R y) in *. set (Z := B2R z * B2R z) in *.
    assert (0 <= X) by (unfold X; nra). assert (0 <= Y) by (unfold Y; nra). assert (0 <= Z) by (unfold Z; nra).
    rewrite U in *. apply Rabs_le_inv in Ex, Ey, Ez, E1, E2. clearbody X Y Z ty. apply Rabs_le. lra.
Qed.

Section Limit.
Context (d : nat) (Hd : (d = 2 \/ d = 3)%nat) (o e b : point) (r : f32).
Context (Lo : length o = d) (Le : length e = d) (Lb : length b = d) (HS : ray_short r o e b).
Context (m : f32) (Pm : fltb f0 m = true) (Fm : is_finite m = true) (Bm : B2R m <= 1048576 * B2R r).
Let HR : ray_range r o e b := proj1 HS.
Notation Rr := (B2R r).
Notation po := (map real o).
Notation pe := (map real e).
Notation pb := (map real b).
Let Pr : 0 < Rr := r_pos o e b r HR.

(** Offset of the centre of a cell from the origin of the ray. *)
Definition off (c : cell) : list R := map2 (fun x y => x - y) (cell_centre pb Rr c) po.
Lemma off_len : forall c, length c = d -> length (off c) = d.
Proof. intros c L. unfold off, cell_centre. apply map2_len; [apply map2_len; [assumption|]|]; now rewrite map_length. Qed.
Lemma nth_off : forall c i, length c = d -> (i < d)%nat -> nth i (off c) 0 = B2R (nth i b f0) + IZR (nth i c 0%Z) * Rr - B2R (nth i o f0).
Proof.
  intros c i L Hi. unfold off, cell_centre. clear - L Lo Lb Hi. revert d c b o L Lb Lo Hi.
  induction i as [|i IH]; intros [|n] [|x c] [|y b] [|z o] Lc Lb Lo Hi; cbn in *; try lia; [reflexivity|]. apply (IH n); lia.
Qed.
Lemma dist_off : forall c, length c = d -> dist (cell_centre pb Rr c) po = sqrt (sumsq (off c)).
Proof.
  intros c L. unfold dist, off. f_equal. generalize (cell_centre pb Rr c). intro l. generalize po. 
  induction l as [|x l IH]; intros [|y l']; cbn; auto. f_equal. apply IH.
Qed.

Lemma test_close : forall c, length c = d -> (forall i, (i < d)%nat -> Rabs (nth i (off c) 0) <= 2048 * Rr) ->
  exists q M, 0 <= q /\ (beyond o b r m c <-> M < q) /\
    Rabs (M - B2R m * B2R m) <= u32 * (B2R m * B2R m) + bp (-150) /\
    exists v, length v = d /\ (forall i, (i < d)%nat -> Rabs (nth i v 0 - nth i (off c) 0) <= / 90 * Rr) /\
      Rabs (q - sumsq v) <= 4 * u32 * sumsq v + 4 * bp (-150).
Proof.
  intros c Lc HB. destruct (K_spec d Hd o e b r Lo Le Lb HR) as [HK KK]. set (K := mag_val radix2 _ (mag radix2 (B2R r))) in *.
  assert (Fr : is_finite r = true) by exact (r_fin o e b r HR).
  assert (RB : bp (-100) <= Rr <= bp 100) by apply (r_ok d Hd o e b r Lo Le Lb HR).
  assert (UU : u32 = / 16777216) by reflexivity.
  set (V := map2 fsub (map2 (fun (k : Z) (b0 : f32) => fadd (fmul (f32_of_Z k) r) b0) c b) o).
  assert (LV : length V = d) by (unfold V; apply map2_len; [now apply map2_len|assumption]).
  assert (PM : 0 < B2R m).
  { apply fltb_iff in Pm. destruct Pm as (_ & _ & Q). rewrite (ext_finite m) in Q by assumption. exact Q. }
  assert (NV : forall i, (i < d)%nat ->
     nth i V f0 = fsub (point_coord_from_cell_coord F32A (nth i c 0%Z) (nth i b f0) r) (nth i o f0)).
  { clear - Lc Lb Lo. unfold V. intros i Hi. clear V. revert d c b o Lc Lb Lo Hi.
    induction i as [|i IH]; intros [|n] [|x c] [|y b] [|z o] Lc Lb Lo Hi; cbn in *; try lia; auto. apply (IH n); lia. }
  assert (AX : forall i, (i < d)%nat -> is_finite (nth i V f0) = true /\ Rabs (B2R (nth i V f0)) <= bp (K + 25) /\
     Rabs (B2R (nth i V f0) - nth i (off c) 0) <= / 90 * Rr).
  { intros i Hi. rewrite NV by assumption. destruct (near_coords d Hd o e b r Lo Le Lb HS i Hi) as ([Fo Ao] & _ & [Fb Ab] & _).
    specialize (HB i Hi). rewrite nth_off in * by assumption. set (x := nth i c 0%Z) in *.
    set (Bi := nth i b f0) in *. set (Oi := nth i o f0) in *.
    apply Rabs_le_inv in HB, Ao, Ab.
    assert (XB : Rabs (IZR x) * Rr <= 67584 * Rr).
    { rewrite <- (Rabs_pos_eq Rr) at 1 by lra. rewrite <- Rabs_mult. apply Rabs_le. lra. }
    assert (XZ : (Z.abs x <= 67584)%Z). { apply le_IZR. rewrite abs_IZR. apply (Rmult_le_reg_r Rr); lra. }
    destruct (pcc_fin x Bi r Fb Fr RB ltac:(lia)) as [Fp Ep]. { apply Rabs_le. lra. }
    set (pc := point_coord_from_cell_coord F32A x Bi r) in *.
    assert (Ab' : Rabs (B2R Bi) <= 32768 * Rr) by (apply Rabs_le; lra).
    assert (EP : Rabs (B2R pc - (IZR x * Rr + B2R Bi)) <= / 96 * Rr).
    { eapply Rle_trans; [exact Ep|]. rewrite UU. pose proof (Rabs_pos (IZR x)). assert (0 <= Rabs (IZR x) * Rr) by (apply Rmult_le_pos; lra). lra. }
    assert (D : Rabs (B2R pc - B2R Oi) <= bp (K + 25)).
    { replace (K + 25)%Z with (25 + K)%Z by lia. rewrite <- bp_mul. change (bp 25) with 33554432. apply Rabs_le_inv in EP. apply Rabs_le. lra. }
    assert (D' := rnd_abs_le_bp _ (K + 25) ltac:(lia) D).
    destruct (fsub_fin pc Oi Fp Fo) as [F E]. { eapply Rle_lt_trans; [exact D'|]. apply bpow_lt. lia. }
    split; [assumption|]. split; [now rewrite E|]. rewrite E.
    pose proof (rnd_sub_rel pc Oi) as ER. set (z := B2R pc - B2R Oi) in *.
    apply Rabs_le_inv in EP. assert (ZB : Rabs z <= 2049 * Rr) by (unfold z; apply Rabs_le; lra).
    rewrite UU in ER. apply Rabs_le_inv in ER. unfold z in *. apply Rabs_le. lra. }
  destruct (square_close (K + 25) V) as (F & SQ).
  { rewrite LV. exact Hd. } { lia. } { rewrite LV. intros i Hi. destruct (AX i Hi) as (A1 & A2 & _). auto. }
  destruct (square_bounds (K + 25) V) as (_ & [F0 _] & _).
  { rewrite LV. exact Hd. } { lia. } { rewrite LV. intros i Hi. destruct (AX i Hi) as (A1 & A2 & _). auto. }
  assert (M2 : Rabs (B2R m * B2R m) <= bp 100).
  { rewrite Rabs_pos_eq by nra. assert (B2R m <= bp 50).
    { eapply Rle_trans; [exact Bm|]. replace (bp 50) with (1048576 * bp 30) by (change 1048576 with (bp 20); rewrite bp_mul; reflexivity).
      pose proof (r_bounds o e b r HR). lra. }
    replace (bp 100) with (bp 50 * bp 50) by (rewrite bp_mul; reflexivity). nra. }
  destruct (fmul_fin m m Fm Fm) as [FM EM].
  { eapply Rle_lt_trans. apply (rnd_abs_le_bp _ 100); [lia|exact M2]. apply bpow_lt. lia. }
  exists (B2R (square_length V)), (B2R (fmul m m)). split; [exact F0|]. split; [|split].
  - unfold beyond. fold V. rewrite fltb_iff. rewrite !ext_finite by assumption. split; [tauto|]. intro Q.
    split; [now apply is_finite_not_nan|]. split; [now apply is_finite_not_nan|]. exact Q.
  - rewrite EM. pose proof (rnd_err (B2R m * B2R m)) as Q. rewrite (Rabs_pos_eq (B2R m * B2R m)) in Q by nra. exact Q.
  - exists (map B2R V). split; [now rewrite map_length|]. split; [|exact SQ].
    intros i Hi. change 0 with (B2R f0) at 1. rewrite map_nth. apply AX. exact Hi.
Qed.

Lemma r_sq : bp (-150) <= / 1000000000 * (Rr * Rr).
Proof.
  assert (R2 : bp (-60) <= Rr * Rr).
  { replace (bp (-60)) with (bp (-30) * bp (-30)) by (rewrite bp_mul; reflexivity). pose proof (r_bounds o e b r HR). pose proof (bpow_ge_0 radix2 (-30)). nra. }
  eapply Rle_trans; [|apply Rmult_le_compat_l; [lra|exact R2]].
  replace (bp (-150)) with (bp (-90) * bp (-60)) by (rewrite bp_mul; reflexivity). apply Rmult_le_compat_r; [apply bpow_ge_0|].
  apply Rle_trans with (bp (-40)); [apply bpow_le; lia|]. unfold bpow; simpl; lra.
Qed.

Lemma near_ok : forall c A, length c = d -> (forall i, (i < d)%nat -> Rabs (nth i (off c) 0) <= 2048 * Rr) ->
  0 <= A -> sumsq (off c) <= A * A -> A + / 32 * Rr <= B2R m -> ~ beyond o b r m c.
Proof.
  intros c A Lc HB HA HS2 HM. destruct (test_close c Lc HB) as (q & M & Pq & BE & EM & v & Lv & Cv & Eq). rewrite BE. apply Rle_not_lt.
  pose proof r_sq as TY. pose proof (bpow_gt_0 radix2 (-150)) as PT. set (ty := bp (-150)) in *. clearbody ty.
  assert (UU : u32 = / 16777216) by reflexivity. rewrite UU in *. clear UU.
  assert (LO := off_len c Lc).
  assert (S1 : sumsq v <= (A + 7 / 4 * (/ 90 * Rr)) * (A + 7 / 4 * (/ 90 * Rr))).
  { apply (sumsq_near v (off c)); try assumption; [rewrite Lv; exact Hd|congruence|lra|]. rewrite Lv. intros i Hi. apply near_abs. now apply Cv. }
  assert (S2 : sumsq v <= (4000 * Rr) * (4000 * Rr)).
  { assert (Q : forall i, (i < d)%nat -> Rabs (nth i v 0) <= 2049 * Rr).
    { intros i Hi. pose proof (near_abs _ _ _ (Cv i Hi)). pose proof (HB i Hi). lra. }
    assert (Q2 : forall x, Rabs x <= 2049 * Rr -> x * x <= (2049 * Rr) * (2049 * Rr)).
    { intros x Hx. replace (x * x) with (Rabs x * Rabs x) by (rewrite <- Rabs_mult; apply Rabs_pos_eq; nra). pose proof (Rabs_pos x). apply Rmult_le_compat; lra. }
    assert (0 <= Rr * Rr) by nra.
    destruct Hd; subst d; destruct v as [|x1 [|x2 [|x3 [|]]]]; cbn in Lv; try lia; unfold sumsq; cbn [fold_right].
    - pose proof (Q2 _ (Q 0%nat ltac:(lia))). pose proof (Q2 _ (Q 1%nat ltac:(lia))). cbn [nth] in *. lra.
    - pose proof (Q2 _ (Q 0%nat ltac:(lia))). pose proof (Q2 _ (Q 1%nat ltac:(lia))). pose proof (Q2 _ (Q 2%nat ltac:(lia))). cbn [nth] in *. lra. }
  pose proof (sumsq_pos v) as S0. set (S := sumsq v) in *. set (mm := B2R m) in *. clearbody S mm.
  apply Rabs_le_inv in EM, Eq. clearbody Pr. set (R := Rr) in *. clearbody R. clear - EM Eq S0 S1 S2 HA HM TY PT Pr.
  destruct (Rle_or_lt mm (4096 * R)) as [L|L].
  - assert (B1 : S <= (mm - / 90 * R) * (mm - / 90 * R)).
    { eapply Rle_trans; [exact S1|]. apply Rmult_le_compat; lra. }
    assert (B2 : (mm - / 90 * R) * (mm - / 90 * R) <= mm * mm - / 90 * (mm * R)) by nra.
    assert (B3 : mm * mm <= 4096 * (mm * R)) by nra.
    assert (B4 : / 32 * (R * R) <= mm * R) by nra.
    assert (B5 : 0 < R * R) by nra.
    set (a := mm * mm) in *. set (bb := mm * R) in *. set (g := R * R) in *. clearbody a bb g. lra.
  - assert (B1 : (4096 * R) * (4096 * R) <= mm * mm) by (apply Rmult_le_compat; lra).
    assert (B5 : 0 < R * R) by nra. set (a := mm * mm) in *. set (g := R * R) in *.
    replace (4000 * R * (4000 * R)) with (16000000 * g) in S2 by (unfold g; ring). replace (4096 * R * (4096 * R)) with (16777216 * g) in B1 by (unfold g; ring). clearbody a g. lra.
Qed.
Lemma not_beyond_near : forall c, length c = d -> (forall i, (i < d)%nat -> Rabs (nth i (off c) 0) <= 2048 * Rr) ->
  ~ beyond o b r m c -> dist (cell_centre pb Rr c) po <= B2R m + / 32 * Rr.
Proof.
  intros c Lc HB NB. rewrite dist_off by assumption. destruct (test_close c Lc HB) as (q & M & Pq & BE & EM & v & Lv & Cv & Eq).
  rewrite BE in NB. apply Rnot_lt_le in NB. apply Rnot_lt_le. intro H.
  pose proof r_sq as TY. pose proof (bpow_gt_0 radix2 (-150)) as PT. set (ty := bp (-150)) in *. clearbody ty.
  assert (UU : u32 = / 16777216) by reflexivity. rewrite UU in *. clear UU.
  assert (LO := off_len c Lc).
  assert (PM : 0 < B2R m).
  { apply fltb_iff in Pm. destruct Pm as (_ & _ & Q). rewrite (ext_finite m) in Q by assumption. exact Q. }
  set (W := sqrt (sumsq v)). assert (PW : 0 <= W) by apply sqrt_pos. assert (WW : sumsq v = W * W) by (symmetry; apply sqrt_sqrt, sumsq_pos).
  assert (S1 : sumsq (off c) <= (W + 7 / 4 * (/ 90 * Rr)) * (W + 7 / 4 * (/ 90 * Rr))).
  { apply (sumsq_near (off c) v); try assumption; [rewrite LO; exact Hd|congruence|lra| |lra]. rewrite LO. intros i Hi. apply near_abs. rewrite Rabs_minus_sym. now apply Cv. }
  assert (S1' : sqrt (sumsq (off c)) <= W + 7 / 4 * (/ 90 * Rr)).
  { rewrite <- (sqrt_Rsqr (W + 7 / 4 * (/ 90 * Rr))) by lra. apply sqrt_le_1; [apply sumsq_pos|apply Rle_0_sqr|exact S1]. }
  assert (S2 : W <= 4000 * Rr).
  { assert (Q : forall i, (i < d)%nat -> Rabs (nth i v 0) <= 2049 * Rr).
    { intros i Hi. pose proof (near_abs _ _ _ (Cv i Hi)). pose proof (HB i Hi). lra. }
    assert (Q2 : forall x, Rabs x <= 2049 * Rr -> x * x <= (2049 * Rr) * (2049 * Rr)).
    { intros x Hx. replace (x * x) with (Rabs x * Rabs x) by (rewrite <- Rabs_mult; apply Rabs_pos_eq; nra). pose proof (Rabs_pos x). apply Rmult_le_compat; lra. }
    assert (0 <= Rr * Rr) by nra. apply Rsqr_incr_0_var; [|lra]. unfold Rsqr. rewrite <- WW. clear WW PW S1 S1'. clearbody W.
    destruct Hd; subst d; destruct v as [|x1 [|x2 [|x3 [|]]]]; cbn in Lv; try lia; unfold sumsq; cbn [fold_right].
    - pose proof (Q2 _ (Q 0%nat ltac:(lia))). pose proof (Q2 _ (Q 1%nat ltac:(lia))). cbn [nth] in *. lra.
    - pose proof (Q2 _ (Q 0%nat ltac:(lia))). pose proof (Q2 _ (Q 1%nat ltac:(lia))). pose proof (Q2 _ (Q 2%nat ltac:(lia))). cbn [nth] in *. lra. }
  rewrite WW in Eq. set (mm := B2R m) in *. assert (L : mm + / 90 * Rr <= W) by lra. clearbody W mm.
  apply Rabs_le_inv in EM, Eq. clearbody Pr. set (R := Rr) in *. clearbody R. clear - EM Eq NB L S2 TY PT Pr PM.
  assert (B1 : mm * mm + / 45 * (mm * R) + / 8100 * (R * R) <= W * W).
  { assert ((mm + / 90 * R) * (mm + / 90 * R) <= W * W) by (apply Rmult_le_compat; lra). nra. }
  assert (B3 : mm * mm <= 4000 * (mm * R)) by nra.
  assert (B5 : 0 < R * R) by nra. assert (B6 : 0 < mm * R) by nra.
  set (a := mm * mm) in *. set (bb := mm * R) in *. set (g := R * R) in *. set (ww := W * W) in *. clearbody a bb g ww. lra.
Qed.
End Limit.

(** ** Cutting the path *)
Lemma first_beyond : forall (P : cell -> Prop) l, (forall x, P x \/ ~ P x) ->
  Forall (fun x => ~ P x) l \/ exists pre x post, l = pre ++ x :: post /\ Forall (fun x => ~ P x) pre /\ P x.
Proof.
  intros P l D. induction l as [|x l IH]; [left; constructor|]. destruct (D x) as [H|H].
  - right. exists [], x, l. auto.
  - destruct IH as [IH|(pre & y & post & -> & F & Y)]; [left; now constructor|].
    right. exists (x :: pre), y, post. split; [reflexivity|]. split; [now constructor|assumption].
Qed.

Lemma limited_cast : forall d, (d = 2 \/ d = 3)%nat -> forall (o e b : point) (r : f32),
  length o = d -> length e = d -> length b = d -> ray_short r o e b -> end_clear (/ 16) r o e b ->
  forall fuel m, fltb f0 m = true -> finite m -> real m <= 1048576 * real r -> (3072 <= fuel)%nat ->
  let oc := cell_from_point F32A o b r in let ec := cell_from_point F32A e b r in
  exists rc oe, cast_ray F32A fuel o e b r m = Ret (rc, oe) /\ (oe = None \/ oe = Some ec) /\
    (forall x, In x rc -> x = oc \/ dist (cell_centre (map real b) (real r) x) (map real o) <= real m + / 32 * real r) /\
    (forall u y, length y = d -> 0 <= u <= 1 ->
       in_grown_cell (- / 16) (map real b) (real r) y (seg (map real o) (map real e) u) ->
       u * dist (map real e) (map real o) + real r <= real m -> In y rc \/ oe = Some y).
Proof.
  intros d Hd o e b r Lo Le Lb HS HC fuel m Pm Fm Bm F oc ec. change (is_finite m = true) in Fm. change (B2R m <= 1048576 * B2R r) in Bm.
  pose proof (r_pos o e b r (proj1 HS)) as Pr.
  assert (FZ : (manhattan oc ec <= Z.of_nat fuel)%Z).
  { pose proof (short_steps d Hd o e b r Lo Le Lb HS). unfold oc, ec. lia. }
  destruct (reach_cast d Hd o e b r Lo Le Lb HS HC fuel f0 eq_refl FZ) as (path & E0 & _ & _ & CO). fold oc ec in E0, CO.
  destruct (cast_prefix fuel d o e b r m f0 path ec Hd Lo Le Lb eq_refl Pm E0) as [CP1 CP2].
  pose proof (cast_completed fuel d o e b r f0 path ec Hd Lo Le Lb E0) as (_ & _ & _ & _ & BT). fold oc ec in BT.
  assert (LO : length oc = d) by exact (len_oc' d o b r Lo Lb). assert (LE : length ec = d) by exact (len_oc' d e b r Le Lb).
  assert (OFF : forall g h x y u, g <= h -> / 64 <= h -> length x = d -> length y = d -> 0 <= u <= 1 ->
     in_grown_cell g (map real b) (real r) y (seg (map real o) (map real e) u) -> between oc y x ->
     forall i, (i < d)%nat -> Rabs (nth i (off o b r x) 0) <= u * Rabs (B2R (nth i e f0) - B2R (nth i o f0)) + (/ 2 + h) * B2R r).
  { intros g h x y u Hg Hh Lx Ly Hu G [_ Bx] i Hi. rewrite (nth_off d o b r Lo Lb) by assumption.
    destruct (near_coords d Hd o e b r Lo Le Lb HS i Hi) as ([Fo Ao] & _).
    destruct (cell_of d Hd o e b r Lo Le Lb HS o i Lo Hi Fo Ao) as [GO _]. fold oc in GO.
    specialize (G i ltac:(unfold cell in *; lia)). specialize (Bx i ltac:(unfold cell in *; lia)).
    rewrite (nth_path d Hd o e b Lo Le Lb) in G by assumption. rewrite nth_real in G by lia. unfold real in *.
    set (xi := nth i x 0%Z) in *. set (yi := nth i y 0%Z) in *. set (ci := nth i oc 0%Z) in *.
    set (Bi := B2R (nth i b f0)) in *. set (Oi := B2R (nth i o f0)) in *. set (D := B2R (nth i e f0) - Oi) in *. set (R := B2R r) in *.
    clearbody xi yi ci Bi Oi D R. clear - GO G Bx Pr Hu Hg Hh.
    assert (HgR : g * R <= h * R) by (apply Rmult_le_compat_r; lra). assert (HhR : / 64 * R <= h * R) by (apply Rmult_le_compat_r; lra).
    assert (UD : - (u * Rabs D) <= u * D <= u * Rabs D). { assert (- Rabs D <= D <= Rabs D) by (unfold Rabs; destruct (Rcase_abs D); lra). split; nra. }
    apply Rabs_le_inv in GO, G.
    assert (Q : (Z.min ci yi <= xi <= Z.max ci yi)%Z) by exact Bx. assert (UP : 0 <= u * Rabs D) by (pose proof (Rabs_pos D); nra).
    destruct (Z_le_gt_dec ci yi) as [L|L].
    - assert (Q1 : (ci <= xi)%Z) by lia. assert (Q2 : (xi <= yi)%Z) by lia. apply IZR_le in Q1, Q2.
      apply (Rmult_le_compat_r R) in Q1; [|lra]. apply (Rmult_le_compat_r R) in Q2; [|lra]. apply Rabs_le. lra.
    - assert (Q1 : (yi <= xi)%Z) by lia. assert (Q2 : (xi <= ci)%Z) by lia. apply IZR_le in Q1, Q2.
      apply (Rmult_le_compat_r R) in Q1; [|lra]. apply (Rmult_le_compat_r R) in Q2; [|lra]. apply Rabs_le. lra. }
  assert (NEAR : forall x y u, length x = d -> length y = d -> 0 <= u <= 1 ->
     in_grown_cell (/ 17) (map real b) (real r) y (seg (map real o) (map real e) u) -> between oc y x ->
     forall i, (i < d)%nat -> Rabs (nth i (off o b r x) 0) <= 2048 * B2R r).
  { intros x y u Lx Ly Hu G Bx i Hi. eapply Rle_trans; [refine (OFF (/ 17) (/ 17) x y u _ _ Lx Ly Hu G Bx i Hi); lra|].
    destruct (near_coords d Hd o e b r Lo Le Lb HS i Hi) as (_ & _ & _ & DE). rewrite Rabs_minus_sym in DE.
    pose proof (Rabs_pos (B2R (nth i e f0) - B2R (nth i o f0))). nra. }
  assert (DEC : forall x, beyond o b r m x \/ ~ beyond o b r m x). { intro x. unfold beyond. match goal with |- ?t = true \/ _ => destruct t end; [now left|right; discriminate]. }
  assert (SND : forall x, In x path -> ~ beyond o b r m x -> dist (cell_centre (map real b) (real r) x) (map real o) <= real m + / 32 * real r).
  { intros x Hx NB. assert (Lx : length x = d) by (destruct (BT x Hx) as [L _]; congruence).
    apply (not_beyond_near d Hd o e b r Lo Le Lb HS m Pm Fm Bm x Lx); [|exact NB].
    apply (NEAR x ec 1); try assumption; [lra|exact (ec_grown d Hd o e b r Lo Le Lb HS)|exact (BT x Hx)]. }
  destruct (first_beyond (beyond o b r m) (tl path) DEC) as [NB|(pre & x & post & TL & NB & BX)].
  - exists path, (Some ec). split; [exact (CP1 NB)|]. split; [now right|]. split.
    + intros x Hx. destruct path as [|c path]; [destruct Hx|]. destruct Hx as [<-|Hx].
      * left. destruct (cast_connected _ _ _ _ _ _ _ _ _ Hd Lo Le Lb E0) as [_ Q]. exact (Q c path eq_refl).
      * right. apply SND; [now right|]. rewrite Forall_forall in NB. exact (NB x Hx).
    + intros u y Ly Hu G _. specialize (CO u y Ly Hu G). apply in_app_or in CO. destruct CO as [I|[->|[]]]; auto.
  - destruct path as [|c path]; [cbn in TL; destruct pre; discriminate TL|]. cbn [tl] in TL.
    assert (Ec : c = oc). { destruct (cast_connected _ _ _ _ _ _ _ _ _ Hd Lo Le Lb E0) as [_ Q]. exact (Q c path eq_refl). }
    exists (c :: pre), None. split; [|split; [now left|split]].
    + apply (CP2 (c :: pre) x post); [cbn; now rewrite TL|discriminate|exact NB|exact BX].
    + intros z [<-|Hz]; [now left|right]. apply SND; [right; rewrite TL; apply in_or_app; now left|]. rewrite Forall_forall in NB. exact (NB z Hz).
    + intros u y Ly Hu G LM. left. specialize (CO u y Ly Hu G). rewrite TL in CO. cbn [app] in CO. destruct CO as [I|I]; [now left|].
      rewrite <- app_assoc in I. apply in_app_or in I. destruct I as [I|I]; [now right|]. exfalso. cbn [app] in I.
      destruct (cast_returns F32A f32_inf_add f32_sig fuel d o e b r f0 _ _ Hd Lo Le Lb E0) as [(_ & Q & _)|(_ & p & Q & _ & _ & _ & CN)]; [discriminate Q|].
      rewrite TL, Ec in CN. fold ec in CN. apply in_split in I. destruct I as (l1 & l2 & I).
      assert (CB : connected (signs F32A (env_of F32A o e b r f0)) (oc :: (pre ++ l1) ++ [y])).
      { replace ((oc :: pre ++ x :: post) ++ [ec]) with ((oc :: (pre ++ l1) ++ [y]) ++ l2) in CN; [now apply connected_app in CN|].
        cbn. f_equal. rewrite <- !app_assoc. f_equal. cbn. exact (eq_sym I). }
      assert (IX : In x (oc :: (pre ++ l1) ++ [y])).
      { right. destruct l1 as [|z l1]; cbn in I; injection I as -> I; apply in_or_app; [right; now left|left]. apply in_or_app. right. now left. }
      pose proof (connected_between _ _ _ _ _ CB IX) as BW. assert (Lx : length x = d) by (destruct BW; congruence).
      revert BX. apply (near_ok d Hd o e b r Lo Le Lb HS m Pm Fm Bm x (u * dist (map real e) (map real o) + 7 / 4 * ((/ 2 + / 64) * B2R r)) Lx).
      * intros i Hi. eapply Rle_trans; [refine (OFF (- / 16) (/ 64) x y u _ _ Lx Ly Hu G BW i Hi); lra|].
        destruct (near_coords d Hd o e b r Lo Le Lb HS i Hi) as (_ & _ & _ & DE). rewrite Rabs_minus_sym in DE.
        pose proof (Rabs_pos (B2R (nth i e f0) - B2R (nth i o f0))). nra.
      * assert (0 <= dist (map real e) (map real o)) by apply sqrt_pos. nra.
      * set (dv := map2 (fun x y => u * (x - y)) (map real e) (map real o)).
        assert (LD : length dv = d) by (unfold dv; apply map2_len; rewrite map_length; assumption).
        apply (sumsq_near (off o b r x) dv); rewrite ?(off_len d o b r Lo Lb x Lx), ?LD; try assumption; try reflexivity; try lra.
        -- assert (0 <= dist (map real e) (map real o)) by apply sqrt_pos. nra.
        -- intros i Hi. eapply Rle_trans; [refine (OFF (- / 16) (/ 64) x y u _ _ Lx Ly Hu G BW i Hi); lra|].
           apply Rplus_le_compat_r. apply Req_le.
           replace (nth i dv 0) with (u * (B2R (nth i e f0) - B2R (nth i o f0))).
           ++ rewrite Rabs_mult, (Rabs_pos_eq u) by lra. reflexivity.
           ++ unfold dv. clear - Lo Le Hi. revert d o e Lo Le Hi. induction i as [|i IH]; intros [|n] [|x o] [|y e] Lo Le Hi; cbn in *; try lia; [reflexivity|]. apply (IH n); lia.
        -- apply Req_le. unfold dist. rewrite <- Rmult_assoc, (Rmult_comm _ (sqrt _)), <- Rmult_assoc, <- Rmult_assoc.
           unfold dv. generalize (map real e) (map real o). intros l l'. clear.
           assert (Q : sumsq (map2 (fun x y => u * (x - y)) l l') = u * u * fold_right Rplus 0 (map2 (fun x y => (x - y) * (x - y)) l l')).
           { revert l'. induction l as [|x l IH]; intros [|y l']; cbn; try ring. fold (sumsq (map2 (fun x y => u * (x - y)) l l')). rewrite IH. ring. }
           rewrite Q. set (f := fold_right _ _ _). assert (P : 0 <= f).
           { unfold f. clear. revert l'. induction l as [|x l IH]; intros [|y l']; cbn; try lra. specialize (IH l'). pose proof (Rle_0_sqr (x - y)). unfold Rsqr in *. lra. }
           rewrite <- (sqrt_sqrt f P) at 1. ring.
      * unfold real in *. lra.
Qed.
