(** Rounding error bounds for f32 and their consequences for converter.rs. *)
From Coq Require Import ZArith List Bool Reals Lra Lia Psatz.
From Flocq Require Import Core BinarySingleNaN Relative.
From Verif Require Import Base F32 FloatFacts Arith Geom.
Open Scope R_scope.

Definition u32 : R := / 16777216.

Lemma u32_bp : bp (-24) = u32.
Proof. unfold u32, bpow. simpl. reflexivity. Qed.

Lemma half_ulp_u : /2 * bp (Z.opp 24 + 1) = u32.
Proof. unfold u32, bpow. simpl. lra. Qed.

Lemma rnd_rel_normal : forall x, bp (-126) <= Rabs x -> Rabs (rnd x - x) <= u32 * Rabs x.
Proof.
  intros x H. pose proof (relative_error_N_FLT radix2 (-149) 24 eq_refl (fun z => negb (Z.even z)) x) as E.
  rewrite half_ulp_u in E. apply E. exact H.
Qed.

Lemma rnd_err : forall x, Rabs (rnd x - x) <= u32 * Rabs x + bp (-150).
Proof.
  intro x. destruct (Rle_or_lt (bp (-126)) (Rabs x)) as [H|H].
  - pose proof (rnd_rel_normal x H). pose proof (bpow_gt_0 radix2 (-150)). lra.
  - destruct (Req_dec x 0) as [->|Hx].
    { rewrite rnd_0, Rminus_0_r, Rabs_R0. pose proof (bpow_gt_0 radix2 (-150)). lra. }
    pose proof (error_le_half_ulp radix2 fexp32 (fun z => negb (Z.even z)) x) as E.
    rewrite ulp_neq_0 in E by assumption.
    assert (Hc : cexp radix2 fexp32 x = (-149)%Z).
    { unfold cexp. change (fexp32 (mag radix2 x)) with (FLT_exp (-149) 24 (mag radix2 x)).
      unfold FLT_exp. apply Z.max_r.
      assert (mag radix2 x <= -126)%Z by (now apply mag_le_bpow). lia. }
    rewrite Hc in E.
    assert (H2 : / 2 * bp (-149) = bp (-150)).
    { change (-149)%Z with (-150 + 1)%Z. rewrite bpow_plus. change (bp 1) with 2. lra. }
    rewrite H2 in E.
    assert (0 <= u32 * Rabs x). { apply Rmult_le_pos. unfold u32; lra. apply Rabs_pos. } lra.
Qed.

(** multiples of the smallest float *)
Definition on_grid (x : R) : Prop := exists m : Z, x = F2R (Float radix2 m (-149)).

Lemma on_grid_float : forall x : f32, on_grid (B2R x).
Proof.
  intro x. pose proof (generic_format_B2R 24 128 x) as G.
  exists (Ztrunc (scaled_mantissa radix2 fexp32 (B2R x)) * 2 ^ (cexp radix2 fexp32 (B2R x) + 149))%Z.
  rewrite G at 1. unfold F2R. simpl.
  assert (Hc : (-149 <= cexp radix2 fexp32 (B2R x))%Z).
  { unfold cexp. change (fexp32 (mag radix2 (B2R x))) with (FLT_exp (-149) 24 (mag radix2 (B2R x))).
    unfold FLT_exp. lia. }
  rewrite mult_IZR. rewrite Rmult_assoc. f_equal.
  change (IZR (2 ^ (cexp radix2 fexp32 (B2R x) + 149))) with
    (IZR (radix2 ^ (cexp radix2 fexp32 (B2R x) + 149))).
  rewrite IZR_Zpower by lia. rewrite <- bpow_plus. f_equal. lia.
Qed.

Lemma on_grid_add : forall a b, on_grid a -> on_grid b -> on_grid (a + b).
Proof. intros a b [m ->] [n ->]. exists (m + n)%Z. unfold F2R. simpl. rewrite plus_IZR. ring. Qed.
Lemma on_grid_sub : forall a b, on_grid a -> on_grid b -> on_grid (a - b).
Proof. intros a b [m ->] [n ->]. exists (m - n)%Z. unfold F2R. simpl. rewrite minus_IZR. ring. Qed.

Lemma rnd_grid_rel : forall x, on_grid x -> Rabs (rnd x - x) <= u32 * Rabs x.
Proof.
  intros x [m ->].
  pose proof (relative_error_N_FLT_F2R_emin radix2 (-149) 24 eq_refl (fun z => negb (Z.even z)) m) as E.
  cbv zeta in E. rewrite half_ulp_u in E. exact E.
Qed.

Lemma rnd_add_rel : forall x y : f32,
  Rabs (rnd (B2R x + B2R y) - (B2R x + B2R y)) <= u32 * Rabs (B2R x + B2R y).
Proof. intros. apply rnd_grid_rel. apply on_grid_add; apply on_grid_float. Qed.
Lemma rnd_sub_rel : forall x y : f32,
  Rabs (rnd (B2R x - B2R y) - (B2R x - B2R y)) <= u32 * Rabs (B2R x - B2R y).
Proof. intros. apply rnd_grid_rel. apply on_grid_sub; apply on_grid_float. Qed.

Lemma bp_m150 : forall r, bp (-100) <= r -> bp (-150) <= u32 * r.
Proof.
  intros r H. change (-150)%Z with (-100 + -50)%Z. rewrite bpow_plus.
  assert (bp (-50) <= u32). { rewrite <- u32_bp. apply bpow_le. lia. }
  pose proof (bpow_gt_0 radix2 (-100)). pose proof (bpow_gt_0 radix2 (-50)). nra.
Qed.

Lemma bp_m150_u : bp (-150) <= u32 / 1000000.
Proof.
  apply Rle_trans with (bp (-50)). apply bpow_le. lia.
  unfold u32, bpow. simpl. lra.
Qed.

(** ** converter.rs in range *)

(** Real error of point_coord_from_cell_coord. *)
Lemma pcc_fin : forall (c : Z) (o r : f32), is_finite o = true -> is_finite r = true ->
  bp (-100) <= B2R r <= bp 100 -> (Z.abs c <= 2 ^ 24)%Z -> Rabs (B2R o) <= 16777216 * B2R r ->
  let p := point_coord_from_cell_coord F32A c o r in
  is_finite p = true /\
  Rabs (B2R p - (IZR c * B2R r + B2R o)) <= u32 * ((2 + u32) * (Rabs (IZR c) * B2R r) + Rabs (B2R o)).
Proof.
  intros c o r Fo Fr [Hr1 Hr2] Hc Ho p.
  assert (Hr0 : 0 < B2R r). { pose proof (bpow_gt_0 radix2 (-100)). lra. }
  assert (Hcr : Rabs (IZR c) <= 16777216).
  { rewrite <- abs_IZR. change 16777216 with (IZR (2^24)). now apply IZR_le. }
  destruct (f32_of_Z_exact c Hc) as [Fc Ec].
  assert (B100 : bp 100 * 16777216 * 4 = bp 126).
  { change 126%Z with (100 + 26)%Z. rewrite bpow_plus. change (bp 26) with 67108864. lra. }
  assert (B126 : bp 126 * 2 = bp 127).
  { change 127%Z with (126 + 1)%Z. rewrite bpow_plus. reflexivity. }
  pose proof (bpow_gt_0 radix2 126) as P126.
  assert (A1 : Rabs (IZR c * B2R r) <= 16777216 * B2R r).
  { rewrite Rabs_mult, (Rabs_pos_eq (B2R r)) by lra. nra. }
  destruct (fmul_fin (f32_of_Z c) r Fc Fr) as [Fm Em].
  { rewrite Ec. apply rnd_abs_lt_128. nra. }
  rewrite Ec in Em.
  assert (E1 : Rabs (B2R (fmul (f32_of_Z c) r) - IZR c * B2R r) <= u32 * (Rabs (IZR c) * B2R r)).
  { rewrite Em.
    assert (X : Rabs (IZR c) * B2R r = Rabs (IZR c * B2R r)).
    { rewrite Rabs_mult, (Rabs_pos_eq (B2R r)) by lra. reflexivity. }
    destruct (Z.eq_dec c 0) as [->|Nc].
    { rewrite Rmult_0_l, rnd_0, Rminus_0_r, Rabs_R0. lra. }
    rewrite X. apply rnd_rel_normal. rewrite <- X.
    assert (1 <= Rabs (IZR c)). { rewrite <- abs_IZR. apply IZR_le. lia. }
    apply Rle_trans with (bp (-100)). apply bpow_le; lia. nra. }
  assert (U : 0 < u32 < /1000000) by (unfold u32; lra).
  set (t := B2R (fmul (f32_of_Z c) r)) in *.
  assert (At : Rabs t <= (1 + u32) * (Rabs (IZR c) * B2R r)).
  { replace t with ((t - IZR c * B2R r) + IZR c * B2R r) by ring.
    eapply Rle_trans. apply Rabs_triang.
    rewrite (Rabs_mult (IZR c)), (Rabs_pos_eq (B2R r)) by lra. lra. }
  assert (At2 : Rabs t <= 16777217 * B2R r).
  { eapply Rle_trans. apply At. pose proof (Rabs_pos (IZR c)). unfold u32. nra. }
  destruct (fadd_fin (fmul (f32_of_Z c) r) o Fm Fo) as [Fp Ep].
  { apply rnd_abs_lt_128. eapply Rle_trans. apply Rabs_triang. fold t. nra. }
  fold t in Ep.
  split. exact Fp.
  unfold p, point_coord_from_cell_coord. simpl tadd. simpl tmul. simpl t_of_isize.
  rewrite Ep.
  pose proof (rnd_add_rel (fmul (f32_of_Z c) r) o) as E2. fold t in E2.
  replace (rnd (t + B2R o) - (IZR c * B2R r + B2R o))
    with ((rnd (t + B2R o) - (t + B2R o)) + (t - IZR c * B2R r)) by ring.
  eapply Rle_trans. apply Rabs_triang.
  assert (Rabs (t + B2R o) <= (1 + u32) * (Rabs (IZR c) * B2R r) + Rabs (B2R o)).
  { eapply Rle_trans. apply Rabs_triang. lra. }
  assert (0 <= Rabs (IZR c) * B2R r) by (apply Rmult_le_pos; [apply Rabs_pos | lra]).
  nra.
Qed.

(** The quotient computed by cell_coord_from_point_coord. *)
Definition quot (p o r : f32) : f32 := fdiv (fsub p o) r.

Lemma quot_fin : forall p o r : f32, is_finite p = true -> is_finite o = true -> is_finite r = true ->
  bp (-100) <= B2R r <= bp 100 -> Rabs (B2R p - B2R o) <= 67108864 * B2R r ->
  is_finite (quot p o r) = true /\
  Rabs (B2R (quot p o r) - (B2R p - B2R o) / B2R r)
    <= (2 * u32 + u32 * u32) * Rabs ((B2R p - B2R o) / B2R r) + bp (-150).
Proof.
  intros p o r Fp Fo Fr [Hr1 Hr2] Hd.
  assert (Hr0 : 0 < B2R r). { pose proof (bpow_gt_0 radix2 (-100)). lra. }
  assert (U : 0 < u32 < /1000000) by (unfold u32; lra).
  assert (B100 : bp 100 * 67108864 = bp 126).
  { change 126%Z with (100 + 26)%Z. rewrite bpow_plus. reflexivity. }
  assert (B126 : bp 126 * 2 = bp 127).
  { change 127%Z with (126 + 1)%Z. rewrite bpow_plus. reflexivity. }
  pose proof (bpow_gt_0 radix2 126) as P126.
  destruct (fsub_fin p o Fp Fo) as [Fs Es].
  { apply rnd_abs_lt_128. nra. }
  pose proof (rnd_sub_rel p o) as E1. rewrite <- Es in E1.
  set (s := B2R (fsub p o)) in *. set (d := B2R p - B2R o) in *.
  assert (As : Rabs s <= (1 + u32) * Rabs d).
  { replace s with ((s - d) + d) by ring. eapply Rle_trans. apply Rabs_triang. lra. }
  assert (Ad : Rabs (d / B2R r) = Rabs d / B2R r).
  { unfold Rdiv. rewrite Rabs_mult, Rabs_inv, (Rabs_pos_eq (B2R r)) by lra. reflexivity. }
  assert (Asr : Rabs (s / B2R r) = Rabs s / B2R r).
  { unfold Rdiv. rewrite Rabs_mult, Rabs_inv, (Rabs_pos_eq (B2R r)) by lra. reflexivity. }
  assert (Pi : 0 < / B2R r) by now apply Rinv_0_lt_compat.
  assert (Asr2 : Rabs (s / B2R r) <= (1 + u32) * Rabs (d / B2R r)).
  { rewrite Asr, Ad. unfold Rdiv. nra. }
  assert (Ad2 : Rabs (d / B2R r) <= 67108864).
  { rewrite Ad. apply Rmult_le_reg_r with (B2R r). lra. unfold Rdiv.
    rewrite Rmult_assoc, Rinv_l, Rmult_1_r by lra. lra. }
  destruct (fdiv_fin (fsub p o) r Fs Fr) as [Fq Eq].
  { lra. }
  { apply rnd_abs_lt_128. fold s. eapply Rle_trans. apply Asr2.
    apply Rle_trans with (bp 30). change (bp 30) with (IZR (2^30)).
    change (IZR (2^30)) with 1073741824. nra. apply bpow_le. lia. }
  fold s in Eq. unfold quot. split. exact Fq. rewrite Eq.
  pose proof (rnd_err (s / B2R r)) as E2.
  assert (E3 : Rabs (s / B2R r - d / B2R r) <= u32 * Rabs (d / B2R r)).
  { replace (s / B2R r - d / B2R r) with ((s - d) / B2R r) by (field; lra).
    unfold Rdiv at 1. rewrite Rabs_mult, Rabs_inv, (Rabs_pos_eq (B2R r)) by lra.
    rewrite Ad. unfold Rdiv. nra. }
  replace (rnd (s / B2R r) - d / B2R r) with ((rnd (s / B2R r) - s / B2R r) + (s / B2R r - d / B2R r)) by ring.
  eapply Rle_trans. apply Rabs_triang. nra.
Qed.

Lemma ccp_quot : forall p o r : f32, is_finite (quot p o r) = true ->
  cell_coord_from_point_coord F32A p o r = sat (ZnearestA (B2R (quot p o r))).
Proof.
  intros p o r H. unfold cell_coord_from_point_coord. simpl t_to_isize. simpl tround.
  change (tdiv F32A (tsub F32A p o) r) with (quot p o r).
  rewrite round_to_isize by now apply is_finite_not_nan. now rewrite ext_finite.
Qed.

Lemma ZnearestA_close : forall x n, Rabs (x - IZR n) < /2 -> ZnearestA x = n.
Proof. intros x n H. now apply Znearest_imp. Qed.

Lemma sat_small : forall n, (Z.abs n <= 2 ^ 62)%Z -> sat n = n.
Proof. intros n H. apply sat_id. unfold in_isize, isize_min, isize_max. lia. Qed.

(** The index of a point close to a cell centre. *)
Lemma ccp_close : forall (p o r : f32) (n : Z), is_finite p = true -> is_finite o = true -> is_finite r = true ->
  bp (-100) <= B2R r <= bp 100 -> (Z.abs n <= 2 ^ 25)%Z ->
  (2 * u32 + u32 * u32) * (Rabs (IZR n) + 1) + bp (-150) + Rabs (B2R p - B2R o - IZR n * B2R r) / B2R r < / 2 ->
  cell_coord_from_point_coord F32A p o r = n.
Proof.
  intros p o r n Fp Fo Fr Hr Hn H.
  assert (Hr0 : 0 < B2R r). { pose proof (bpow_gt_0 radix2 (-100)). lra. }
  assert (Hnr : Rabs (IZR n) <= 33554432).
  { rewrite <- abs_IZR. change 33554432 with (IZR (2^25)). now apply IZR_le. }
  pose proof (bpow_gt_0 radix2 (-150)) as P150.
  assert (U : 0 < u32 < /1000000) by (unfold u32; lra).
  set (d := B2R p - B2R o) in *.
  set (x := Rabs (d - IZR n * B2R r) / B2R r) in *.
  assert (Hx0 : 0 <= x). { unfold x. apply Rmult_le_pos. apply Rabs_pos. apply Rlt_le, Rinv_0_lt_compat. lra. }
  assert (Hx1 : x < / 2). { pose proof (Rabs_pos (IZR n)). nra. }
  assert (Hdx : Rabs (d / B2R r - IZR n) = x).
  { replace (d / B2R r - IZR n) with ((d - IZR n * B2R r) / B2R r) by (field; lra).
    unfold x, Rdiv. rewrite Rabs_mult, Rabs_inv, (Rabs_pos_eq (B2R r)) by lra. reflexivity. }
  assert (Hdr : Rabs (d / B2R r) <= Rabs (IZR n) + x).
  { replace (d / B2R r) with ((d / B2R r - IZR n) + IZR n) by ring.
    eapply Rle_trans. apply Rabs_triang. lra. }
  assert (Hd : Rabs d <= 67108864 * B2R r).
  { replace d with (d / B2R r * B2R r) by (field; lra).
    rewrite Rabs_mult, (Rabs_pos_eq (B2R r)) by lra. nra. }
  destruct (quot_fin p o r Fp Fo Fr Hr Hd) as [Fq Eq]. fold d in Eq.
  rewrite ccp_quot by assumption. rewrite (ZnearestA_close _ n).
  { apply sat_small. lia. }
  replace (B2R (quot p o r) - IZR n) with ((B2R (quot p o r) - d / B2R r) + (d / B2R r - IZR n)) by ring.
  eapply Rle_lt_trans. apply Rabs_triang. rewrite Hdx. nra.
Qed.

Lemma round_trip_coord : forall (c : Z) (o r : f32), is_finite o = true -> is_finite r = true ->
  bp (-100) <= B2R r <= bp 100 -> (Z.abs c <= 2 ^ 20)%Z -> Rabs (B2R o) <= 1048576 * B2R r ->
  cell_coord_from_point_coord F32A (point_coord_from_cell_coord F32A c o r) o r = c.
Proof.
  intros c o r Fo Fr Hr Hc Ho.
  assert (Hr0 : 0 < B2R r). { pose proof (bpow_gt_0 radix2 (-100)). lra. }
  destruct (pcc_fin c o r Fo Fr Hr) as [Fp Ep]. { lia. } { lra. }
  set (p := point_coord_from_cell_coord F32A c o r) in *.
  assert (Hcr : Rabs (IZR c) <= 1048576).
  { rewrite <- abs_IZR. change 1048576 with (IZR (2^20)). now apply IZR_le. }
  apply ccp_close; try assumption. { lia. }
  replace (B2R p - B2R o - IZR c * B2R r) with (B2R p - (IZR c * B2R r + B2R o)) by ring.
  assert (X : Rabs (B2R p - (IZR c * B2R r + B2R o)) / B2R r <= u32 * ((2 + u32) * Rabs (IZR c) + 1048576)).
  { apply Rmult_le_reg_r with (B2R r). lra. unfold Rdiv. rewrite Rmult_assoc, Rinv_l, Rmult_1_r by lra.
    eapply Rle_trans. apply Ep. unfold u32. nra. }
  pose proof bp_m150_u. unfold u32 in *. nra.
Qed.
