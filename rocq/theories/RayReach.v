(** How far the border distances of the ray caster are from the exact ones, and what
    that means for the cells it visits. *)
From Coq Require Import ZArith List Bool Reals Lra Lia Psatz.
From Flocq Require Import Core BinarySingleNaN.
From Verif Require Import Base F32 FloatFacts RoundError Arith Geom RayCaster Spec MathProofs ConverterProofs BoundsProofs RayProofs CastProofs RayRange.
Open Scope R_scope.

(** ** Values of finite results *)
Lemma clamp_inv : forall (z : f32) v, is_finite z = true -> ext z = clamp (rnd v) -> B2R z = rnd v.
Proof.
  intros z v F E. pose proof (is_finite_not_nan z F) as N.
  rewrite (ext_finite z F) in E. pose proof (B2R_lt_emax z) as A. rewrite E in A. apply clamp_abs_lt in A.
  rewrite E. now apply clamp_lt_id.
Qed.
Lemma fadd_val : forall x y : f32, is_finite (fadd x y) = true ->
  is_finite x = true /\ is_finite y = true /\ B2R (fadd x y) = rnd (B2R x + B2R y).
Proof.
  intros x y F. assert (is_finite x = true /\ is_finite y = true) as [Fx Fy].
  { destruct x as [s| [|] | |s m e B], y as [s'| [|] | |s' m' e' B']; try discriminate F; split; reflexivity. }
  split; [assumption|]. split; [assumption|]. apply clamp_inv; [assumption|]. now apply fadd_ext.
Qed.
Lemma fsub_val : forall x y : f32, is_finite (fsub x y) = true ->
  is_finite x = true /\ is_finite y = true /\ B2R (fsub x y) = rnd (B2R x - B2R y).
Proof.
  intros x y F. assert (is_finite x = true /\ is_finite y = true) as [Fx Fy].
  { destruct x as [s| [|] | |s m e B], y as [s'| [|] | |s' m' e' B']; try discriminate F; split; reflexivity. }
  split; [assumption|]. split; [assumption|]. apply clamp_inv; [assumption|]. now apply fsub_ext.
Qed.
Lemma fmul_val : forall x y : f32, is_finite (fmul x y) = true ->
  is_finite x = true /\ is_finite y = true /\ B2R (fmul x y) = rnd (B2R x * B2R y).
Proof.
  intros x y F. assert (is_finite x = true /\ is_finite y = true) as [Fx Fy].
  { destruct x as [s| s | |s m e B], y as [s'| s' | |s' m' e' B']; try discriminate F; split; reflexivity. }
  split; [assumption|]. split; [assumption|]. apply clamp_inv; [assumption|]. now apply fmul_ext.
Qed.
Lemma fdiv_val : forall x y : f32, is_finite y = true -> B2R y <> 0 -> is_finite (fdiv x y) = true ->
  is_finite x = true /\ B2R (fdiv x y) = rnd (B2R x / B2R y).
Proof.
  intros x y Fy Ny F. assert (is_finite x = true) as Fx.
  { destruct x as [s| s | |s m e B], y as [s'| s' | |s' m' e' B']; try discriminate F; reflexivity. }
  split; [assumption|]. apply clamp_inv; [assumption|]. now apply fdiv_ext.
Qed.

Lemma near_abs : forall x y d, Rabs (x - y) <= d -> Rabs x <= Rabs y + d.
Proof. intros x y d H. replace x with ((x - y) + y) by ring. eapply Rle_trans; [apply Rabs_triang|]. lra. Qed.

(** ** One axis: [q] is the speed, [D] the computed one *)
Lemma delta_close : forall R dl D q, 0 < R -> 0 < D -> 0 < q -> Rabs (D - q) <= 3 * u32 * D ->
  Rabs (dl - R / D) <= u32 * (R / D) -> Rabs (dl * q - R) <= 5 * u32 * R.
Proof.
  intros R dl D q HR HD Hq H1 H2.
  assert (A : Rabs (dl * D - R) <= u32 * R).
  { replace (dl * D - R) with ((dl - R / D) * D) by (field; lra). rewrite Rabs_mult, (Rabs_pos_eq D) by lra.
    replace (u32 * R) with (u32 * (R / D) * D) by (field; lra). apply Rmult_le_compat_r; lra. }
  assert (U : 0 < u32 < / 1000000) by (unfold u32; lra).
  assert (X' : Rabs dl * D <= (1 + u32) * R).
  { rewrite <- (Rabs_pos_eq D) by lra. rewrite <- Rabs_mult. apply near_abs in A. rewrite (Rabs_pos_eq R) in A by lra. lra. }
  replace (dl * q - R) with ((dl * D - R) - dl * (D - q)) by ring.
  eapply Rle_trans; [apply Rabs_triang|]. rewrite Rabs_Ropp, Rabs_mult.
  assert (Rabs dl * Rabs (D - q) <= 3 * u32 * (Rabs dl * D)).
  { replace (3 * u32 * (Rabs dl * D)) with (Rabs dl * (3 * u32 * D)) by ring. apply Rmult_le_compat_l; [apply Rabs_pos|assumption]. }
  assert (0 <= Rabs dl * D) by (apply Rmult_le_pos; [apply Rabs_pos|lra]).
  assert (3 * u32 * (Rabs dl * D) <= 3 * u32 * ((1 + u32) * R)) by (apply Rmult_le_compat_l; lra).
  assert (PU : 0 < u32 * R) by (apply Rmult_lt_0_compat; lra).
  assert (u32 * (u32 * R) <= / 3 * (u32 * R)) by (apply Rmult_le_compat_r; lra). lra.
Qed.

Lemma first_close : forall R t D q n, 0 < R -> 0 < Rabs D <= bp 62 -> 0 < q -> Rabs (Rabs D - q) <= 3 * u32 * Rabs D ->
  bp (-30) <= R -> Rabs n <= 4 * R ->
  Rabs (t - n / D) <= u32 * Rabs (n / D) + bp (-150) ->
  forall s, (s = 1 /\ 0 < D) \/ (s = -1 /\ D < 0) -> Rabs (t * q - s * n) <= 24 * u32 * R.
Proof.
  intros R t D q n HR [PD HD] Hq H1 R30 Hn H2 s Hs.
  assert (U : 0 < u32 < / 1000000) by (unfold u32; lra).
  assert (TINY : bp (-150) * Rabs D <= u32 * R).
  { apply Rle_trans with (bp (-150) * bp 62). { apply Rmult_le_compat_l; [apply bpow_ge_0|assumption]. }
    rewrite <- bpow_plus. replace (-150 + 62)%Z with (-24 + -64)%Z by lia. rewrite bpow_plus, u32_bp.
    apply Rmult_le_compat_l; [lra|]. eapply Rle_trans; [|exact R30]. apply bpow_le. lia. }
  assert (ND : D <> 0) by (intro Z; rewrite Z, Rabs_R0 in PD; lra).
  assert (A : Rabs (t * D - n) <= 5 * u32 * R).
  { replace (t * D - n) with ((t - n / D) * D) by (field; lra). rewrite Rabs_mult.
    apply Rle_trans with ((u32 * Rabs (n / D) + bp (-150)) * Rabs D).
    - apply Rmult_le_compat_r; [lra|assumption].
    - rewrite Rmult_plus_distr_r. rewrite Rmult_assoc, <- Rabs_mult. replace (n / D * D) with n by (field; assumption).
      assert (u32 * Rabs n <= u32 * (4 * R)) by (apply Rmult_le_compat_l; lra). lra. }
  assert (B : Rabs (t * Rabs D - s * n) <= 5 * u32 * R).
  { destruct Hs as [[-> P]|[-> P]].
    - rewrite (Rabs_pos_eq D) by lra. now rewrite Rmult_1_l.
    - rewrite (Rabs_left D) by lra. replace (t * - D - -1 * n) with (- (t * D - n)) by ring. now rewrite Rabs_Ropp. }
  assert (NS : Rabs (s * n) <= 4 * R).
  { rewrite Rabs_mult. replace (Rabs s) with 1 by (destruct Hs as [[-> _]|[-> _]]; [rewrite Rabs_R1|rewrite Rabs_left by lra]; lra). lra. }
  assert (TD : Rabs t * Rabs D <= 5 * R).
  { rewrite <- (Rabs_Rabsolu D). rewrite <- Rabs_mult. apply near_abs in B.
    eapply Rle_trans; [exact B|]. assert (u32 * R <= / 1000000 * R) by (apply Rmult_le_compat_r; lra). lra. }
  replace (t * q - s * n) with ((t * Rabs D - s * n) - t * (Rabs D - q)) by ring.
  eapply Rle_trans; [apply Rabs_triang|]. rewrite Rabs_Ropp, Rabs_mult.
  assert (Rabs t * Rabs (Rabs D - q) <= 3 * u32 * (Rabs t * Rabs D)).
  { replace (3 * u32 * (Rabs t * Rabs D)) with (Rabs t * (3 * u32 * Rabs D)) by ring. apply Rmult_le_compat_l; [apply Rabs_pos|assumption]. }
  assert (3 * u32 * (Rabs t * Rabs D) <= 3 * u32 * (5 * R)) by (apply Rmult_le_compat_l; lra).
  assert (0 < u32 * R) by (apply Rmult_lt_0_compat; lra). lra.
Qed.

(** Error, in cells, after [j] steps along the axis. *)
Definition eps (j : Z) : R := / 40 + u32 * (IZR j * (IZR j + 20) / 2).
Lemma eps_bound : forall j, (0 <= j <= 1024)%Z -> 0 <= eps j <= / 17.
Proof.
  intros j [J0 J1]. apply IZR_le in J0, J1. unfold eps, u32. set (x := IZR j) in *. clearbody x. nra.
Qed.
Lemma eps_step : forall (R t dl q A : R) j, 0 < R -> 0 < q -> (0 <= j < 1024)%Z ->
  Rabs A <= IZR (j + 2) * R ->
  Rabs (t * q - A) <= eps j * R -> Rabs (dl * q - R) <= 5 * u32 * R ->
  forall t', Rabs (t' - (t + dl)) <= u32 * Rabs (t + dl) -> Rabs (t' * q - (A + R)) <= eps (j + 1) * R.
Proof.
  intros R t dl q A j HR Hq Hj HA H1 H2 t' H3.
  pose proof (eps_bound j ltac:(lia)) as EB.
  assert (U : 0 < u32 < / 1000000) by (unfold u32; lra).
  assert (S : Rabs ((t + dl) * q - (A + R)) <= eps j * R + 5 * u32 * R).
  { replace ((t + dl) * q - (A + R)) with ((t * q - A) + (dl * q - R)) by ring. eapply Rle_trans; [apply Rabs_triang|]. lra. }
  assert (M : Rabs ((t + dl) * q) <= (IZR j + 4) * R).
  { apply near_abs in S. eapply Rle_trans; [exact S|].
    assert (Rabs (A + R) <= (IZR j + 3) * R).
    { eapply Rle_trans; [apply Rabs_triang|]. rewrite (Rabs_pos_eq R) by lra. rewrite plus_IZR in HA. lra. }
    assert (eps j * R <= / 17 * R) by (apply Rmult_le_compat_r; lra).
    assert (u32 * R <= / 1000000 * R) by (apply Rmult_le_compat_r; lra). lra. }
  assert (X : Rabs (t' * q - (t + dl) * q) <= u32 * ((IZR j + 4) * R)).
  { replace (t' * q - (t + dl) * q) with ((t' - (t + dl)) * q) by ring. rewrite Rabs_mult, (Rabs_pos_eq q) by lra.
    apply Rle_trans with (u32 * Rabs (t + dl) * q). { apply Rmult_le_compat_r; lra. }
    rewrite Rmult_assoc. apply Rmult_le_compat_l; [lra|]. rewrite <- (Rabs_pos_eq q) by lra. now rewrite <- Rabs_mult. }
  replace (t' * q - (A + R)) with ((t' * q - (t + dl) * q) + ((t + dl) * q - (A + R))) by ring.
  eapply Rle_trans; [apply Rabs_triang|].
  assert (E : eps (j + 1) = eps j + u32 * (IZR j + 21 / 2)).
  { unfold eps. rewrite plus_IZR. field. }
  rewrite E. assert (0 <= u32 * R) by nra. nra.
Qed.

(** The least distance is chosen. *)
Lemma select_least : forall (tm : point) d, length tm = d -> (d = 2 \/ d = 3)%nat ->
  (forall i, (i < d)%nat -> is_nan (nth i tm finf) = false) ->
  forall i, (i < d)%nat -> ext (nth (select_dim F32A tm) tm finf) <= ext (nth i tm finf).
Proof.
  intros tm d L Hd NN i Hi. unfold select_dim. change (T F32A) with f32. cbn [tltb tinf F32A]. rewrite L.
  assert (T : forall j k, fltb (nth j tm finf) (nth k tm finf) = true -> ext (nth j tm finf) < ext (nth k tm finf)).
  { intros j k H. apply fltb_iff in H. apply H. }
  assert (G : forall j k, (j < d)%nat -> (k < d)%nat -> fltb (nth j tm finf) (nth k tm finf) = false -> ext (nth k tm finf) <= ext (nth j tm finf)).
  { intros j k Hj Hk H. apply fltb_false_iff in H; auto. }
  destruct Hd as [-> | ->]; cbn [Nat.eqb].
  - destruct (fltb (nth 0 tm finf) (nth 1 tm finf)) eqn:E; [apply T in E|apply G in E; try lia];
    destruct i as [|[|i]]; try lia; lra.
  - destruct (fltb (nth 0 tm finf) (nth 1 tm finf)) eqn:E; [apply T in E|apply G in E; try lia].
    + destruct (fltb (nth 0 tm finf) (nth 2 tm finf)) eqn:E2; [apply T in E2|apply G in E2; try lia];
      destruct i as [|[|[|i]]]; try lia; lra.
    + destruct (fltb (nth 1 tm finf) (nth 2 tm finf)) eqn:E2; [apply T in E2|apply G in E2; try lia];
      destruct i as [|[|[|i]]]; try lia; lra.
Qed.

Lemma Forall2_at : forall {X Y} (P : X -> Y -> Prop) l m x y, Forall2 P l m -> forall i, (i < length l)%nat -> P (nth i l x) (nth i m y).
Proof.
  intros X Y P l m x y H. induction H as [|u v l m H1 H2 IH]; intros [|i] Hi; cbn in *; try lia; auto. apply IH. lia.
Qed.

Section Reach.
Context (d : nat) (Hd : (d = 2 \/ d = 3)%nat) (o e b : point) (r : f32).
Context (Lo : length o = d) (Le : length e = d) (Lb : length b = d) (HS : ray_short r o e b).
Let HR : ray_range r o e b := proj1 HS.
Notation oc := (cell_from_point F32A o b r).
Notation ec := (cell_from_point F32A e b r).
Notation O i := (B2R (nth i o f0)).
Notation E i := (B2R (nth i e f0)).
Notation Bm i := (B2R (nth i b f0)).
Notation Rr := (B2R r).

Let Pr : 0 < Rr := r_pos o e b r HR.
Let Fr : is_finite r = true := r_fin o e b r HR.
Let Or : res_ok r := r_ok d Hd o e b r Lo Le Lb HR.
Let Lf : f32 := fsqrt (square_length (map2 fsub e o)).

Lemma near_coords : forall i, (i < d)%nat ->
  (is_finite (nth i o f0) = true /\ Rabs (O i) <= 32768 * Rr) /\
  (is_finite (nth i e f0) = true /\ Rabs (E i) <= 32768 * Rr) /\
  (is_finite (nth i b f0) = true /\ Rabs (Bm i) <= 32768 * Rr) /\ Rabs (O i - E i) <= 1023 * Rr.
Proof.
  intros i Hi. pose proof HS as (_ & A1 & A2 & A3 & A4). rewrite Forall_forall in A1, A2, A3.
  split; [apply A1, nth_In; lia|]. split; [apply A2, nth_In; lia|]. split; [apply A3, nth_In; lia|].
  apply (Forall2_at _ o e f0 f0 A4 i); lia.
Qed.

(** Cells of the two ends. *)
Lemma cell_of : forall (p : point) i, length p = d -> (i < d)%nat -> is_finite (nth i p f0) = true -> Rabs (B2R (nth i p f0)) <= 32768 * Rr ->
  let c := nth i (cell_from_point F32A p b r) 0%Z in
  Rabs (B2R (nth i p f0) - (Bm i + IZR c * Rr)) <= (/ 2 + / 64) * Rr /\ Rabs (IZR c) <= 65537.
Proof.
  intros p i Lp Hi Fp Ap c. destruct (near_coords i Hi) as (_ & _ & [Fb Ab] & _).
  set (k := cell_coord_from_point_coord F32A (nth i p f0 : f32) (nth i b f0) r).
  assert (EK : c = k) by exact (nth_cell d b r Lb p i Lp Hi). clearbody c. subst c.
  pose proof (nearest1 (nth i p f0) (nth i b f0) r Or Fp Fb) as N. unfold real in N. change (2 ^ 26)%Z with 67108864%Z in N.
  apply Rabs_le_inv in Ap, Ab.
  assert (D : Rabs (B2R (nth i p f0) - Bm i) <= 65536 * Rr) by (apply Rabs_le; lra).
  specialize (N ltac:(lra)). cbv zeta in N. fold k in N. clearbody k.
  replace (bp (-22)) with (/ 4194304) in N by (unfold bpow; simpl; lra).
  split.
  - rewrite Rabs_minus_sym. replace (Bm i + IZR k * Rr - B2R (nth i p f0)) with (IZR k * Rr + Bm i - B2R (nth i p f0)) by ring. lra.
  - apply Rabs_le_inv in D.
    assert (N' : Rabs (IZR k * Rr + Bm i - B2R (nth i p f0)) <= Rr) by (apply Rabs_le_inv in N; apply Rabs_le; split; [|]; assert (Rabs (B2R (nth i p f0) - Bm i) <= 65536 * Rr) by (apply Rabs_le; lra); lra).
    apply Rabs_le_inv in N'. apply Rabs_le. split; apply (Rmult_le_reg_r Rr); lra.
Qed.

Context (HN : oc <> ec).

Lemma L_pos : 0 < B2R Lf.
Proof.
  destruct (length_fin d Hd o e b r Lo Le Lb HR HN) as [_ [B _]]. fold Lf in B.
  eapply Rlt_le_trans; [|exact B]. apply bpow_gt_0.
Qed.

(** Computed direction against the exact one. *)
Lemma dir_close : forall i, (i < d)%nat -> O i <> E i ->
  let D := fdiv (fsub (nth i e f0) (nth i o f0)) Lf in
  let q := Rabs (E i - O i) / B2R Lf in
  0 < q /\ is_finite D = true /\ bp (-63) <= Rabs (B2R D) <= bp 62 /\ Rabs (Rabs (B2R D) - q) <= 3 * u32 * Rabs (B2R D) /\
  ((O i < E i /\ 0 < B2R D) \/ (E i < O i /\ B2R D < 0)).
Proof.
  intros i Hi Ne D q. pose proof L_pos as PL.
  destruct (K_spec d Hd o e b r Lo Le Lb HR) as [_ KK].
  destruct (diff_fin d Hd o e b r Lo Le Lb HR i Hi) as (Fx & Ex & Ax & Cx). cbv zeta in Ex, Ax, Cx. set (x := fsub (nth i e f0) (nth i o f0)) in *.
  destruct (length_fin d Hd o e b r Lo Le Lb HR HN) as [FL BL]. fold Lf in FL, BL.
  destruct (dir_fin d Hd o e b r Lo Le Lb HR HN i Hi) as [FD CD]. fold Lf x D in FD, CD.
  set (K := mag_val radix2 (B2R r) (mag radix2 (B2R r))) in *.
  destruct Cx as [[C _]|[_ C]]; [contradiction|].
  assert (PI := Rinv_0_lt_compat _ PL).
  assert (IL : / B2R Lf <= bp (41 - K)).
  { replace (41 - K)%Z with (- (K - 41))%Z by lia. rewrite bpow_opp. apply Rinv_le; [apply bpow_gt_0|apply BL]. }
  assert (UB : Rabs (B2R x / B2R Lf) <= bp 62).
  { unfold Rdiv. rewrite Rabs_mult, (Rabs_pos_eq (/ B2R Lf)) by lra.
    replace 62%Z with ((K + 21) + (41 - K))%Z by lia. rewrite bpow_plus.
    apply Rmult_le_compat; try assumption; [apply Rabs_pos|lra]. }
  destruct (fdiv_val x Lf FL ltac:(lra) FD) as [_ ED]. fold D in ED.
  assert (UD : Rabs (B2R D) <= bp 62) by (rewrite ED; apply rnd_abs_le_bp; [lia|assumption]).
  assert (LD : bp (-63) <= Rabs (B2R D)).
  { destruct CD as [[Q _]|[[_ Q]|[_ Q]]]; [contradiction| |]; pose proof (bpow_gt_0 radix2 (-63)).
    - rewrite Rabs_pos_eq by lra. assumption. - rewrite Rabs_left by lra. lra. }
  assert (PW : 0 < Rabs (E i - O i)) by (apply Rabs_pos_lt; lra).
  assert (Pq : 0 < q) by (unfold q; apply Rdiv_lt_0_compat; assumption).
  split; [assumption|]. split; [assumption|]. split; [split; assumption|]. split.
  - pose proof (rnd_sub_rel (nth i e f0) (nth i o f0)) as R1. rewrite <- Ex in R1.
    assert (NX : bp (-126) <= Rabs (B2R x / B2R Lf)).
    { apply Rnot_lt_le. intro Q. assert (Q' : Rabs (B2R x / B2R Lf) <= bp (-126)) by lra.
      pose proof (rnd_abs_le_bp _ (-126) ltac:(lia) Q') as Q2. rewrite <- ED in Q2.
      assert (bp (-126) < bp (-63)) by (apply bpow_lt; lia). lra. }
    pose proof (rnd_rel_normal _ NX) as R2. rewrite <- ED in R2.
    assert (EY : Rabs (Rabs (B2R x / B2R Lf) - q) <= u32 * q).
    { unfold q, Rdiv. rewrite Rabs_mult, (Rabs_pos_eq (/ B2R Lf)) by lra.
      rewrite <- Rmult_minus_distr_r, Rabs_mult, (Rabs_pos_eq (/ B2R Lf)) by lra.
      rewrite <- Rmult_assoc. apply Rmult_le_compat_r; [lra|].
      eapply Rle_trans; [apply Rabs_triang_inv2|]. exact R1. }
    set (y := Rabs (B2R x / B2R Lf)) in *.
    assert (ED' : Rabs (Rabs (B2R D) - y) <= u32 * y) by (eapply Rle_trans; [apply Rabs_triang_inv2|exact R2]).
    assert (U : 0 < u32 < / 1000000) by (unfold u32; lra).
    set (z := Rabs (B2R D)) in *. clearbody y z q. apply Rabs_le_inv in EY, ED'. apply Rabs_le.
    assert (u32 * y <= u32 * ((1 + u32) * q)) by (apply Rmult_le_compat_l; lra).
    assert (u32 * (u32 * q) <= / 1000000 * (u32 * q)) by (apply Rmult_le_compat_r; [apply Rmult_le_pos|]; lra).
    assert (0 < u32 * q) by (apply Rmult_lt_0_compat; lra).
    assert (u32 * q <= / 1000000 * q) by (apply Rmult_le_compat_r; lra).
    assert (z >= 9 / 10 * q) by lra.
    assert (u32 * (9 / 10 * q) <= u32 * z) by (apply Rmult_le_compat_l; lra). lra.
  - pose proof (bpow_gt_0 radix2 (-63)). destruct CD as [[Q _]|[[Q1 Q2]|[Q1 Q2]]]; [contradiction|left|right]; split; lra.
Qed.

(** Axis [i] moves in direction [s]; signed distance to the border through which it
    leaves coordinate [x]. *)
Definition border (s : Z) (i : nat) (x : Z) : R := IZR s * (Bm i + (IZR x + IZR s / 2) * Rr - O i).
Let q (i : nat) : R := Rabs (E i - O i) / B2R Lf.

Lemma axis_start : forall m i, (i < d)%nat ->
  let s := f32_to_isize (nth i (re_step F32A (env o e b r m)) f0) in
  let t := nth i (tm0 o e b r) finf in
  let dl := nth i (re_t_delta F32A (env o e b r m)) finf in
  (O i = E i /\ s = 0%Z /\ t = finf /\ dl = finf) \/
  (moving o e i s /\ is_finite t = true /\ Rabs (B2R t * q i - border s i (nth i oc 0%Z)) <= eps 0 * Rr /\
   is_finite dl = true /\ 0 <= B2R dl /\ Rabs (B2R dl * q i - Rr) <= 5 * u32 * Rr).
Proof.
  intros m i Hi s t dl.
  destruct (range_setup d Hd o e b r Lo Le Lb HR m HN) as (k & Hk & H). destruct (H i Hi) as [Q|(Mv & Ft & _ & Fd & _)]; [now left|right].
  fold s in Mv. fold t in Ft. fold dl in Fd. clear H k Hk.
  assert (Ne : O i <> E i) by (destruct Mv as [[_ Q]|[_ Q]]; lra).
  destruct (dir_close i Hi Ne) as (Pq & FD & BD & CD & SD). fold (q i) in Pq, CD.
  set (V := vdivs F32A (vsub F32A e o) (norm F32A (vsub F32A e o))).
  assert (LV : length V = d) by (unfold V, vdivs; rewrite map_length; now apply map2_len).
  assert (LS : length (signum F32A V) = d) by (unfold signum; now rewrite map_length).
  pose proof (nth_dir d Hd o e b Lo Le Lb i Hi) as ND. fold V Lf in ND.
  set (D := fdiv (fsub (nth i e f0) (nth i o f0)) Lf) in *.
  pose proof (nth_init_t_max F32A d (signum F32A V) b o V r oc i LS Lb Lo LV (len_oc' d o b r Lo Lb) Hi) as TM.
  pose proof (nth_init_t_delta F32A d (signum F32A V) V r i LS LV Hi) as TD.
  pose proof (nth_signum F32A V i ltac:(rewrite LV; exact Hi)) as NS.
  change (tzero F32A) with f0 in *. rewrite ND in NS. rewrite NS, ND in TM. rewrite NS, ND in TD.
  change (tinf F32A) with finf in TM, TD.
  assert (Es : s = f32_to_isize (signum1 F32A D)).
  { unfold s, env, env_of. cbn [re_step]. fold V. exact (f_equal f32_to_isize NS). }
  assert (Et : t = axis_t_max F32A (signum1 F32A D) (nth i b f0) (nth i o f0) D r (nth i oc 0%Z)) by exact TM.
  assert (Edl : dl = axis_t_delta F32A (signum1 F32A D) D r) by exact TD.
  clear TM TD NS ND LV LS. clearbody s t dl. clear V.
  destruct (near_coords i Hi) as ([Fo Ao] & _ & [Fb Ab] & _).
  destruct (cell_of o i Lo Hi Fo Ao) as [CO BC]. set (c := nth i oc 0%Z) in *. clearbody c.
  assert (ZD : feqb D f0 = false).
  { destruct (feqb D f0) eqn:Q; [|reflexivity]. apply feqb_iff in Q. destruct Q as (_ & _ & Q).
    rewrite ext_finite in Q by assumption. change (ext f0) with 0 in Q. lra. }
  assert (SG : exists sf : f32, signum1 F32A D = sf /\ is_finite sf = true /\ feqb sf f0 = false /\
     ((B2R sf = 1 /\ s = 1%Z /\ 0 < B2R D) \/ (B2R sf = -1 /\ s = (-1)%Z /\ B2R D < 0))).
  { unfold signum1 in *. cbn [teqb tltb tzero tone tmone F32A] in *. rewrite ZD in *.
    destruct SD as [[Q1 Q2]|[Q1 Q2]].
    - assert (PD : fltb f0 D = true).
      { apply fltb_iff. split; [reflexivity|]. split; [now apply is_finite_not_nan|]. rewrite (ext_finite D) by assumption. change (ext f0) with 0. lra. }
      rewrite PD in *. exists f1. split; [reflexivity|]. split; [reflexivity|]. split; [reflexivity|]. left.
      split; [exact f1_real|]. split; [|assumption]. rewrite Es. exact to_isize_f1.
    - assert (PD : fltb f0 D = false).
      { apply fltb_false_iff; [reflexivity|now apply is_finite_not_nan|]. rewrite (ext_finite D) by assumption. change (ext f0) with 0. lra. }
      rewrite PD in *. exists fm1. split; [reflexivity|]. split; [vm_compute; reflexivity|]. split; [vm_compute; reflexivity|]. right.
      split; [to_SF fm1|]. split; [|assumption]. rewrite Es. exact to_isize_fm1. }
  destruct SG as (sf & Esf & Fsf & Zsf & SG). rewrite Esf in *. clear Es Esf SD ZD.
  split; [assumption|]. split; [assumption|].
  unfold axis_t_max in Et. unfold axis_t_delta in Edl. cbn [teqb tzero tadd tmul tdiv tsub tabs thalf F32A] in Et, Edl. rewrite Zsf in Et, Edl.
  assert (ND0 : B2R D <> 0) by lra.
  pose proof (r_bounds o e b r HR) as RB30.
  split.
  - rewrite Et in Ft. destruct (fdiv_val _ D FD ND0 Ft) as [F1 E1]. rewrite <- Et in E1.
    destruct (fsub_val _ _ F1) as (F2 & _ & E2). destruct (fadd_val _ _ F2) as (F3 & F4 & E3).
    set (pc := point_coord_from_cell_coord F32A c (nth i b f0) r) in *.
    destruct (fmul_val _ _ F4) as (F5 & _ & E5). destruct (fmul_val _ _ F5) as (_ & _ & E6).
    set (n1 := fmul sf r) in *. set (n2 := fmul n1 fhalf) in *. set (n3 := fadd pc n2) in *. set (n4 := fsub n3 (nth i o f0)) in *.
    assert (V1 : B2R n1 = IZR s * Rr).
    { rewrite E6. destruct SG as [(-> & -> & _)|(-> & -> & _)].
      - rewrite Rmult_1_l. apply rnd_float.
      - replace (-1 * Rr) with (- Rr) by ring. change (IZR (-1)) with (-1). replace (-1 * Rr) with (- Rr) by ring. rewrite round_NE_opp. f_equal. apply rnd_float. }
    assert (EH : B2R fhalf = / 2) by (to_SF fhalf). rewrite V1, EH in E5. change (2 ^ 24)%Z with 16777216%Z in *.
    assert (AS : Rabs (IZR s) = 1) by (destruct SG as [(_ & -> & _)|(_ & -> & _)]; [apply Rabs_R1|rewrite Rabs_left; lra]).
    assert (A2 : Rabs (IZR s * Rr * / 2) = Rr / 2).
    { rewrite !Rabs_mult, AS, (Rabs_pos_eq Rr), (Rabs_pos_eq (/ 2)) by lra. lra. }
    assert (V2 : Rabs (B2R n2 - IZR s * Rr * / 2) <= u32 * (Rr / 2)).
    { rewrite E5. rewrite <- A2. apply rnd_rel_normal. rewrite A2. apply Rle_trans with (bp (-30 + -1)).
      - apply bpow_le. lia. - rewrite bpow_plus. change (bp (-1)) with (/ 2). lra. }
    pose proof (rnd_add_rel pc n2) as V3. rewrite <- E3 in V3. 
    pose proof (rnd_sub_rel n3 (nth i o f0)) as V4. rewrite <- E2 in V4.
    assert (RB : bp (-100) <= Rr <= bp 100) by apply Or.
    destruct (pcc_fin c (nth i b f0) r Fb Fr RB) as [_ VP].
    { apply le_IZR. rewrite abs_IZR. change (IZR (2 ^ 24)) with 16777216. lra. } { lra. }
    fold pc in VP. pose proof (Rabs_pos (IZR c)) as PC.
    assert (W : Rabs (IZR c) * Rr <= 65537 * Rr) by (apply Rmult_le_compat_r; lra).
    assert (VP' : Rabs (B2R pc - (IZR c * Rr + Bm i)) <= / 100 * Rr).
    { eapply Rle_trans; [exact VP|]. unfold u32. set (w := Rabs (IZR c) * Rr) in *. lra. }
    assert (CR : Rabs (IZR c * Rr + Bm i) <= 98305 * Rr).
    { eapply Rle_trans; [apply Rabs_triang|]. rewrite Rabs_mult, (Rabs_pos_eq Rr) by lra. lra. }
    set (h := IZR s * Rr * / 2) in *. set (w := IZR c * Rr + Bm i) in *.
    assert (V23 : Rabs (B2R pc + B2R n2) <= 98307 * Rr).
    { replace (B2R pc + B2R n2) with ((B2R pc - w) + w + (B2R n2 - h) + h) by ring.
      eapply Rle_trans; [apply Rabs_triang|]. eapply Rle_trans; [apply Rplus_le_compat_r, Rabs_triang|].
      eapply Rle_trans; [apply Rplus_le_compat_r, Rplus_le_compat_r, Rabs_triang|]. unfold u32 in V2. lra. }
    assert (V3' : Rabs (B2R n3 - (w + h)) <= / 60 * Rr).
    { replace (B2R n3 - (w + h)) with ((B2R n3 - (B2R pc + B2R n2)) + (B2R pc - w) + (B2R n2 - h)) by ring.
      eapply Rle_trans; [apply Rabs_triang|]. eapply Rle_trans; [apply Rplus_le_compat_r, Rabs_triang|]. unfold u32 in V2, V3. lra. }
    assert (WO : Rabs (w + h - O i) <= 17 / 16 * Rr).
    { replace (w + h - O i) with ((- (O i - (Bm i + IZR c * Rr))) + h) by (unfold w; ring).
      eapply Rle_trans; [apply Rabs_triang|]. rewrite Rabs_Ropp. lra. }
    assert (V4' : Rabs (B2R n4 - (w + h - O i)) <= / 59 * Rr).
    { replace (B2R n4 - (w + h - O i)) with ((B2R n4 - (B2R n3 - O i)) + (B2R n3 - (w + h))) by ring.
      eapply Rle_trans; [apply Rabs_triang|].
      assert (Rabs (B2R n3 - O i) <= 2 * Rr).
      { replace (B2R n3 - O i) with ((B2R n3 - (w + h)) + (w + h - O i)) by ring. eapply Rle_trans; [apply Rabs_triang|]. lra. }
      unfold u32 in V4. lra. }
    assert (V4'' : Rabs (B2R n4) <= 4 * Rr) by (apply near_abs in V4'; lra).
    assert (PD : 0 < Rabs (B2R D) <= bp 62) by (pose proof (bpow_gt_0 radix2 (-63)); lra).
    pose proof (rnd_err (B2R n4 / B2R D)) as V5. rewrite <- E1 in V5.
    assert (FC := first_close Rr (B2R t) (B2R D) (q i) (B2R n4) Pr PD Pq CD (proj1 RB30) V4'' V5 (IZR s)
      ltac:(destruct SG as [(_ & -> & SG)|(_ & -> & SG)]; [left|right]; split; auto)).
    assert (EB : border s i c = IZR s * (w + h - O i)).
    { unfold border, w, h. field. }
    rewrite EB.
    replace (B2R t * q i - IZR s * (w + h - O i)) with ((B2R t * q i - IZR s * B2R n4) + IZR s * (B2R n4 - (w + h - O i))) by ring.
    eapply Rle_trans; [apply Rabs_triang|]. rewrite (Rabs_mult (IZR s)), AS.
    unfold eps. unfold u32 in *. lra.
  - rewrite Edl in Fd. destruct (fabs_fin D FD) as [FA EA].
    destruct (fdiv_val r (fabs D) FA ltac:(rewrite EA; apply Rabs_no_R0; assumption) Fd) as [_ E1].
    rewrite <- Edl in *. rewrite EA in E1. split; [assumption|].
    assert (PD : 0 < Rabs (B2R D)) by (pose proof (bpow_gt_0 radix2 (-63)); lra).
    assert (Pdl : 0 < Rr / Rabs (B2R D)) by (apply Rdiv_lt_0_compat; assumption).
    split. { rewrite E1. apply rnd_nonneg. lra. }
    apply (delta_close Rr (B2R dl) (Rabs (B2R D)) (q i)); try assumption. rewrite E1.
    rewrite <- (Rabs_pos_eq (Rr / Rabs (B2R D))) at 3 by lra. apply rnd_rel_normal.
    rewrite Rabs_pos_eq by lra. apply Rle_trans with (bp (-30) * bp (-62)).
    + rewrite <- bpow_plus. apply bpow_le. lia.
    + unfold Rdiv. apply Rmult_le_compat; try apply bpow_ge_0; [lra|]. change (-62)%Z with (- (62))%Z. rewrite bpow_opp.
      apply Rinv_le; [assumption|lra].
Qed.

Context (HC : end_clear (/ 16) r o e b).
Notation po := (map real o).
Notation pe := (map real e).
Notation pb := (map real b).

Lemma nth_real : forall l i, (i < length l)%nat -> nth i (map real l) 0 = B2R (nth i l f0).
Proof. intros l i Hi. change 0 with (real f0). apply (map_nth real). Qed.
Lemma nth_path : forall t i, (i < d)%nat -> nth i (seg po pe t) 0 = O i + t * (E i - O i).
Proof.
  intros t i Hi. unfold seg.
  assert (G : forall (l m : list R) i, (i < length l)%nat -> length l = length m ->
    nth i (map2 (fun x y => x + t * (y - x)) l m) 0 = nth i l 0 + t * (nth i m 0 - nth i l 0)).
  { clear. induction l as [|u l IH]; intros [|v m] i Hi L; cbn in *; try lia. destruct i; [reflexivity|]. apply IH; lia. }
  rewrite G by (rewrite !map_length; lia). rewrite !nth_real by lia. reflexivity.
Qed.
Lemma grown_at : forall g c t, length c = d ->
  (in_grown_cell g pb Rr c (seg po pe t) <->
   forall i, (i < d)%nat -> Rabs (O i + t * (E i - O i) - (Bm i + IZR (nth i c 0%Z) * Rr)) <= (/ 2 + g) * Rr).
Proof.
  intros g c t Lc. unfold in_grown_cell. rewrite Lc. split; intros H i Hi; specialize (H i Hi);
  rewrite nth_path, nth_real in * by lia; assumption.
Qed.
Lemma grown_convex : forall g c t1 t2 t, length c = d -> t1 <= t <= t2 ->
  in_grown_cell g pb Rr c (seg po pe t1) -> in_grown_cell g pb Rr c (seg po pe t2) -> in_grown_cell g pb Rr c (seg po pe t).
Proof.
  intros g c t1 t2 t Lc Ht H1 H2. rewrite grown_at in * by assumption. intros i Hi. specialize (H1 i Hi). specialize (H2 i Hi).
  apply Rabs_le_inv in H1, H2. apply Rabs_le. destruct (Rle_or_lt 0 (E i - O i)); nra.
Qed.
Lemma grown_same : forall x y t, length x = d -> length y = d ->
  in_grown_cell (/ 17) pb Rr x (seg po pe t) -> in_grown_cell (- / 16) pb Rr y (seg po pe t) -> x = y.
Proof.
  intros x y t Lx Ly Hx Hy. rewrite grown_at in Hx, Hy by assumption. apply nth_ext_Z; [congruence|]. intros i Hi. rewrite Lx in Hi.
  specialize (Hx i Hi). specialize (Hy i Hi). apply Rabs_le_inv in Hx. apply Rabs_le_inv in Hy.
  set (u := nth i x 0%Z) in *. set (v := nth i y 0%Z) in *.
  assert (IZR u - IZR v < 1) by nra. assert (IZR v - IZR u < 1) by nra.
  rewrite <- minus_IZR in *. apply lt_IZR in H, H0. lia.
Qed.
Lemma oc_grown : in_grown_cell (/ 17) pb Rr oc (seg po pe 0).
Proof.
  apply grown_at; [exact (len_oc' d o b r Lo Lb)|]. intros i Hi. destruct (near_coords i Hi) as ([Fo Ao] & _).
  destruct (cell_of o i Lo Hi Fo Ao) as [C _]. rewrite Rmult_0_l, Rplus_0_r. lra.
Qed.
Lemma ec_grown : in_grown_cell (/ 17) pb Rr ec (seg po pe 1).
Proof.
  apply grown_at; [exact (len_oc' d e b r Le Lb)|]. intros i Hi. destruct (near_coords i Hi) as (_ & [Fe Ae] & _).
  destruct (cell_of e i Le Hi Fe Ae) as [C _]. replace (O i + 1 * (E i - O i)) with (E i) by ring. lra.
Qed.

Section Loop.
Context (m : f32) (Far : forall c, too_far F32A (env o e b r m) c = false).
Notation s i := (f32_to_isize (nth i (re_step F32A (env o e b r m)) f0)).
Notation dl i := (nth i (re_t_delta F32A (env o e b r m)) finf).

Lemma mv : forall i, (i < d)%nat -> O i <> E i ->
  moving o e i (s i) /\ is_finite (dl i) = true /\ 0 <= B2R (dl i) /\ Rabs (B2R (dl i) * q i - Rr) <= 5 * u32 * Rr /\
  (s i = 1%Z \/ s i = (-1)%Z) /\ IZR (s i) * (E i - O i) = Rabs (E i - O i) /\ 0 < Rabs (E i - O i).
Proof.
  intros i Hi N. destruct (axis_start m i Hi) as [[Q _]|(Mv & _ & _ & Fd & Pd & Cd)]; [contradiction|].
  repeat split; try assumption.
  - destruct Mv as [[-> _]|[-> _]]; auto.
  - destruct Mv as [[-> Q]|[-> Q]]; [rewrite Rabs_pos_eq by lra|rewrite Rabs_left by lra]; ring.
  - apply Rabs_pos_lt. lra.
Qed.

(** Start and end cell on a moving axis. *)
Lemma ends_order : forall i, (i < d)%nat -> O i <> E i -> (0 <= s i * (nth i ec 0 - nth i oc 0) <= 1024)%Z.
Proof.
  intros i Hi N. destruct (mv i Hi N) as (Mv & _). destruct (near_coords i Hi) as ([Fo Ao] & [Fe Ae] & _ & DE).
  destruct (cell_of o i Lo Hi Fo Ao) as [CO _]. destruct (cell_of e i Le Hi Fe Ae) as [CE _].
  assert (MO : forall x y : f32, is_finite x = true -> is_finite y = true -> B2R x <= B2R y ->
    (cell_coord_from_point_coord F32A x (nth i b f0) r <= cell_coord_from_point_coord F32A y (nth i b f0) r)%Z).
  { intros x y Fx Fy L. apply monotone1; [exact (r_pos_b o e b r HR)|]. apply fleb_iff.
    rewrite !ext_finite by assumption. repeat split; try assumption; now apply is_finite_not_nan. }
  assert (EO := nth_cell d b r Lb o i Lo Hi). assert (EE := nth_cell d b r Lb e i Le Hi).
  assert (M1 : O i <= E i -> (nth i oc 0 <= nth i ec 0)%Z) by (intro Q; rewrite EO, EE; exact (MO _ _ Fo Fe Q)).
  assert (M2 : E i <= O i -> (nth i ec 0 <= nth i oc 0)%Z) by (intro Q; rewrite EO, EE; exact (MO _ _ Fe Fo Q)).
  clear EO EE MO.
  set (x := nth i oc 0%Z) in *. set (y := nth i ec 0%Z) in *. clearbody x y.
  apply Rabs_le_inv in DE, CO, CE. destruct Mv as [[-> Q]|[-> Q]].
  - specialize (M1 ltac:(lra)). assert (X : IZR y - IZR x < 1025) by nra. rewrite <- minus_IZR in X. apply lt_IZR in X. lia.
  - specialize (M2 ltac:(lra)). assert (X : IZR x - IZR y < 1025) by nra. rewrite <- minus_IZR in X. apply lt_IZR in X. lia.
Qed.

(** Where the border is on an axis still on its way, and on one that has arrived. *)
Lemma border_before : forall i x, (i < d)%nat -> O i <> E i -> (s i * (x - nth i ec 0) <= -1)%Z ->
  border (s i) i x <= Rabs (E i - O i) - / 16 * Rr.
Proof.
  intros i x Hi N Hx. destruct (mv i Hi N) as (Mv & _ & _ & _ & S1 & SW & _). rewrite <- SW. unfold border.
  destruct (near_coords i Hi) as (_ & [Fe Ae] & _). destruct (cell_of e i Le Hi Fe Ae) as [CE _].
  set (y := nth i ec 0%Z) in *. clearbody y. apply Rabs_le_inv in CE.
  destruct S1 as [S1|S1]; rewrite S1 in *.
  - pose proof (HC i (y - 1)%Z ltac:(lia) N) as C. unfold real in C. rewrite minus_IZR in C.
    assert (X : (x <= y - 1)%Z) by lia. apply IZR_le in X. rewrite minus_IZR in X.
    revert C. unfold Rabs. destruct (Rcase_abs _); intro C; nra.
  - pose proof (HC i y ltac:(lia) N) as C. unfold real in C.
    assert (X : (y + 1 <= x)%Z) by lia. apply IZR_le in X. rewrite plus_IZR in X.
    revert C. unfold Rabs. destruct (Rcase_abs _); intro C; nra.
Qed.
Lemma border_after : forall i, (i < d)%nat -> O i <> E i -> Rabs (E i - O i) + / 16 * Rr <= border (s i) i (nth i ec 0%Z).
Proof.
  intros i Hi N. destruct (mv i Hi N) as (Mv & _ & _ & _ & S1 & SW & _). rewrite <- SW. unfold border.
  destruct (near_coords i Hi) as (_ & [Fe Ae] & _). destruct (cell_of e i Le Hi Fe Ae) as [CE _].
  set (y := nth i ec 0%Z) in *. clearbody y. apply Rabs_le_inv in CE.
  destruct S1 as [S1|S1]; rewrite S1 in *.
  - pose proof (HC i y ltac:(lia) N) as C. unfold real in C.
    revert C. unfold Rabs. destruct (Rcase_abs _); intro C; nra.
  - pose proof (HC i (y - 1)%Z ltac:(lia) N) as C. unfold real in C. rewrite minus_IZR in C.
    revert C. unfold Rabs. destruct (Rcase_abs _); intro C; nra.
Qed.

Record J (cur : cell) (tm : point) (t : R) : Prop := {
  j_len : length cur = d;
  j_tlen : length tm = d;
  j_time : 0 <= t <= 1;
  j_still : forall i, (i < d)%nat -> O i = E i -> nth i tm finf = finf /\ nth i cur 0%Z = nth i ec 0%Z;
  j_fin : forall i, (i < d)%nat -> O i <> E i -> is_finite (nth i tm finf) = true;
  j_move : forall i, (i < d)%nat -> O i <> E i ->
    Rabs (B2R (nth i tm finf) * q i - border (s i) i (nth i cur 0%Z)) <= eps (s i * (nth i cur 0 - nth i oc 0))%Z * Rr;
  j_between : forall i, (i < d)%nat -> O i <> E i -> (0 <= s i * (nth i cur 0 - nth i oc 0) <= s i * (nth i ec 0 - nth i oc 0))%Z;
  j_cell : in_grown_cell (/ 17) pb Rr cur (seg po pe t);
  j_clock : t = 0 \/ forall i, (i < d)%nat -> O i <> E i -> t * B2R Lf <= B2R (nth i tm finf)
}.

Lemma q_eq : forall i x, x * q i = x / B2R Lf * Rabs (E i - O i).
Proof. intros i x. unfold q. pose proof L_pos. field. lra. Qed.
Lemma time_close : forall cur tm t i, J cur tm t -> (i < d)%nat -> O i <> E i ->
  Rabs (B2R (nth i tm finf) / B2R Lf * Rabs (E i - O i) - border (s i) i (nth i cur 0%Z)) <= / 17 * Rr.
Proof.
  intros cur tm t i H Hi N. rewrite <- q_eq. eapply Rle_trans; [apply (j_move _ _ _ H i Hi N)|].
  apply Rmult_le_compat_r; [lra|]. pose proof (j_between _ _ _ H i Hi N). pose proof (ends_order i Hi N).
  apply eps_bound. lia.
Qed.

Lemma choice : forall cur tm t, J cur tm t -> cur <> ec ->
  let k := select_dim F32A tm in let u := B2R (nth k tm finf) / B2R Lf in
  (k < d)%nat /\ O k <> E k /\ nth k cur 0%Z <> nth k ec 0%Z /\ u <= 1 /\
  forall i, (i < d)%nat -> O i <> E i -> B2R (nth k tm finf) <= B2R (nth i tm finf).
Proof.
  intros cur tm t H N k u. pose proof L_pos as PL. assert (PI := Rinv_0_lt_compat _ PL).
  assert (Hk : (k < d)%nat).
  { unfold k. rewrite <- (j_tlen _ _ _ H) at 1. apply select_dim_lt. change (T F32A) with f32. rewrite (j_tlen _ _ _ H). exact Hd. }
  assert (U : exists i, (i < d)%nat /\ nth i cur 0%Z <> nth i ec 0%Z).
  { destruct (Forall_Exists_dec (fun i => nth i cur 0%Z = nth i ec 0%Z) (fun i => Z.eq_dec _ _) (seq 0 d)) as [F|X].
    - elim N. apply nth_ext_Z. { rewrite (j_len _ _ _ H). symmetry. exact (len_oc' d e b r Le Lb). }
      intros i Hi. rewrite (j_len _ _ _ H) in Hi. rewrite Forall_forall in F. apply F. apply in_seq. lia.
    - apply Exists_exists in X. destruct X as (i & I & D). apply in_seq in I. exists i. split; [lia|exact D]. }
  destruct U as (i & Hi & Di).
  assert (Ni : O i <> E i) by (intro Q; apply Di; now apply (j_still _ _ _ H)).
  pose proof (select_least tm d (j_tlen _ _ _ H) Hd) as M.
  assert (NN : forall j, (j < d)%nat -> is_nan (nth j tm finf) = false).
  { intros j Hj. destruct (Req_dec (O j) (E j)) as [Q|Q].
    - destruct (j_still _ _ _ H j Hj Q) as [-> _]. reflexivity.
    - apply is_finite_not_nan. now apply (j_fin _ _ _ H). }
  specialize (M NN). fold k in M.
  assert (Nk : O k <> E k).
  { intro Q. destruct (j_still _ _ _ H k Hk Q) as [Z _]. pose proof (M i Hi) as Mi. rewrite Z in Mi.
    rewrite (ext_finite (nth i tm finf)) in Mi by (now apply (j_fin _ _ _ H)). change (ext finf) with (bp 128) in Mi.
    pose proof (B2R_lt_emax (nth i tm finf)) as A. apply Rabs_lt_inv in A. lra. }
  assert (Min : forall j, (j < d)%nat -> O j <> E j -> B2R (nth k tm finf) <= B2R (nth j tm finf)).
  { intros j Hj Nj. pose proof (M j Hj) as Mj. rewrite !ext_finite in Mj by (now apply (j_fin _ _ _ H)). exact Mj. }
  assert (Ui : B2R (nth i tm finf) / B2R Lf < 1).
  { pose proof (time_close _ _ _ i H Hi Ni) as C. apply Rabs_le_inv in C.
    destruct (mv i Hi Ni) as (_ & _ & _ & _ & S1 & _ & PW).
    pose proof (j_between _ _ _ H i Hi Ni) as Bt.
    pose proof (border_before i (nth i cur 0%Z) Hi Ni ltac:(nia)) as BB. nra. }
  assert (Uk : u <= B2R (nth i tm finf) / B2R Lf).
  { unfold u, Rdiv. apply Rmult_le_compat_r; [lra|]. now apply Min. }
  split; [assumption|]. split; [assumption|]. split; [|split; [lra|assumption]].
  intro Z. pose proof (time_close _ _ _ k H Hk Nk) as C. fold u in C. rewrite Z in C. apply Rabs_le_inv in C.
  pose proof (border_after k Hk Nk) as BA. destruct (mv k Hk Nk) as (_ & _ & _ & _ & _ & _ & PW). nra.
Qed.

Lemma step_J : forall cur tm t, J cur tm t -> cur <> ec -> exists t',
  let k := select_dim F32A tm in
  t <= t' /\
  J (next_cell F32A (env o e b r m) cur tm) (next_tm F32A (env o e b r m) tm) t' /\ in_grown_cell (/ 17) pb Rr cur (seg po pe t') /\
  manhattan (next_cell F32A (env o e b r m) cur tm) ec = (manhattan cur ec - 1)%Z /\
  in_isize (nth k cur 0 + s k)%Z = true.
Proof.
  intros cur tm t H N. destruct (choice _ _ _ H N) as (Hk & Nk & Dk & U1 & Min). set (k := select_dim F32A tm) in *.
  set (u := B2R (nth k tm finf) / B2R Lf) in *. pose proof L_pos as PL. assert (PI := Rinv_0_lt_compat _ PL).
  set (t' := Rmax 0 u). exists t'. cbv zeta.
  pose proof (j_len _ _ _ H) as Lc. pose proof (j_tlen _ _ _ H) as Lt. pose proof (j_time _ _ _ H) as Tt.
  assert (EU : u * B2R Lf = B2R (nth k tm finf)) by (unfold u; field; lra).
  assert (Tu : u <= t' <= 1 /\ 0 <= t') by (unfold t'; pose proof (Rmax_l 0 u); pose proof (Rmax_r 0 u); split; [split|]; try lra; apply Rmax_lub; lra).
  assert (TT : t <= t').
  { destruct (j_clock _ _ _ H) as [->|C]; [lra|]. specialize (C k Hk Nk). apply Rle_trans with u; [|lra].
    apply (Rmult_le_reg_r (B2R Lf)); lra. }
  assert (T0 : t' = 0 \/ t' = u) by (unfold t', Rmax; destruct (Rle_dec 0 u); auto).
  assert (T0' : u <= 0 -> t = 0 /\ t' = 0).
  { intro Q. assert (Z : t' = 0) by (unfold t'; rewrite Rmax_left; lra). lra. }
  destruct (mv k Hk Nk) as (Mk & Fdk & Pdk & Cdk & Sk & SWk & PWk).
  pose proof (j_between _ _ _ H k Hk Nk) as Bk. pose proof (ends_order k Hk Nk) as Ek.
  assert (OLD : in_grown_cell (/ 17) pb Rr cur (seg po pe t')).
  { destruct (Rle_or_lt u 0) as [Q|Q]. { destruct (T0' Q) as [Z1 Z2]. rewrite Z2, <- Z1. apply H. }
    assert (Z : t' = u) by (unfold t'; apply Rmax_right; lra).
    apply grown_at; [assumption|]. intros i Hi. pose proof (proj1 (grown_at _ _ _ Lc) (j_cell _ _ _ H) i Hi) as C.
    apply Rabs_le_inv in C. apply Rabs_le.
    destruct (Req_dec (O i) (E i)) as [Q'|Q']. { rewrite Q' in *. lra. }
    pose proof (time_close _ _ _ i H Hi Q') as TC. apply Rabs_le_inv in TC.
    assert (Mi : t' <= B2R (nth i tm finf) / B2R Lf).
    { rewrite Z. unfold u, Rdiv. apply Rmult_le_compat_r; [lra|]. now apply Min. }
    destruct (mv i Hi Q') as (_ & _ & _ & _ & Si & SWi & PWi). unfold border in TC.
    assert (X : t' * Rabs (E i - O i) <= B2R (nth i tm finf) / B2R Lf * Rabs (E i - O i)) by (apply Rmult_le_compat_r; lra).
    assert (Y : t * Rabs (E i - O i) <= t' * Rabs (E i - O i)) by (apply Rmult_le_compat_r; lra).
    rewrite <- SWi in *. destruct Si as [Si|Si]; rewrite Si in *; lra. }
  assert (NC : forall i, nth i (next_cell F32A (env o e b r m) cur tm) 0%Z =
     if Nat.eq_dec k i then (nth k cur 0 + s k)%Z else nth i cur 0%Z).
  { intro i. unfold next_cell. fold k. change (t_to_isize F32A) with f32_to_isize. change (tzero F32A) with f0.
    destruct (Nat.eq_dec k i) as [<-|Ne]; [apply nth_upd_same; lia|now apply nth_upd_other]. }
  assert (NT := fun i => nth_next_tm d o e b r m tm i Lt Hk). fold k in NT.
  assert (LN : length (next_cell F32A (env o e b r m) cur tm) = d) by (unfold next_cell; now rewrite upd_length).
  (** the distance of the chosen axis after the step *)
  assert (KS : is_finite (fadd (nth k tm finf) (dl k)) = true /\ B2R (nth k tm finf) <= B2R (fadd (nth k tm finf) (dl k)) /\
     Rabs (B2R (fadd (nth k tm finf) (dl k)) * q k - border (s k) k (nth k cur 0 + s k)%Z) <= eps (s k * (nth k cur 0 + s k - nth k oc 0))%Z * Rr).
  { set (j := (s k * (nth k cur 0 - nth k oc 0))%Z) in *.
    assert (Hj : (0 <= j < 1024)%Z) by (unfold j; destruct Sk as [Sk|Sk]; rewrite Sk in *; lia).
    pose proof (j_move _ _ _ H k Hk Nk) as C. fold j in C.
    destruct (near_coords k Hk) as ([Fo Ao] & _). destruct (cell_of o k Lo Hk Fo Ao) as [CO _]. apply Rabs_le_inv in CO.
    assert (BJ : Rabs (border (s k) k (nth k cur 0%Z)) <= IZR (j + 2) * Rr).
    { assert (EJ : IZR j = IZR (s k) * (IZR (nth k cur 0%Z) - IZR (nth k oc 0%Z))) by (unfold j; rewrite mult_IZR, minus_IZR; reflexivity).
      assert (J0 : 0 <= IZR j) by (apply IZR_le; lia).
      unfold border. rewrite plus_IZR. apply Rabs_le. destruct Sk as [Sk|Sk]; rewrite Sk in *; nra. }
    destruct (dir_close k Hk Nk) as (Pq & _ & BD & CD & _). fold (q k) in Pq, CD.
    set (D := Rabs (B2R (fdiv _ _))) in *.
    assert (Q64 : bp (-64) <= q k).
    { assert (u32 * D <= / 1000000 * D) by (apply Rmult_le_compat_r; [|unfold u32; lra]; pose proof (bpow_gt_0 radix2 (-63)); lra).
      apply Rabs_le_inv in CD. replace (bp (-63)) with (2 * bp (-64)) in BD by (change (-63)%Z with (-64 + 1)%Z; rewrite bpow_plus; change (bp 1) with 2; ring).
      pose proof (bpow_gt_0 radix2 (-64)). lra. }
    assert (BIG : forall x, Rabs (x * q k) <= 4096 * Rr -> Rabs x <= bp 106).
    { intros x Hx. rewrite Rabs_mult, (Rabs_pos_eq (q k)) in Hx by lra.
      assert (Rabs x * bp (-64) <= 4096 * Rr).
      { eapply Rle_trans; [|exact Hx]. apply Rmult_le_compat_l; [apply Rabs_pos|assumption]. }
      apply (Rmult_le_reg_r (bp (-64))); [apply bpow_gt_0|]. rewrite <- bpow_plus. replace (106 + -64)%Z with (12 + 30)%Z by lia. rewrite bpow_plus.
      change (bp 12) with 4096. pose proof (r_bounds o e b r HR). lra. }
    assert (JB : IZR (j + 2) <= 1026) by (apply IZR_le; lia).
    assert (B1 : Rabs (B2R (nth k tm finf)) <= bp 106).
    { apply BIG. apply near_abs in C. pose proof (eps_bound j ltac:(lia)). nra. }
    assert (B2 : Rabs (B2R (dl k)) <= bp 106).
    { apply BIG. apply near_abs in Cdk. rewrite (Rabs_pos_eq Rr) in Cdk by lra. unfold u32 in Cdk. lra. }
    pose proof (j_fin _ _ _ H k Hk Nk) as Ftk.
    destruct (fadd_fin (nth k tm finf) (dl k) Ftk Fdk) as [FA EA].
    { eapply Rle_lt_trans. apply (rnd_abs_le_bp _ 107); [lia|].
      - eapply Rle_trans; [apply Rabs_triang|]. change 107%Z with (106 + 1)%Z. rewrite bpow_plus. change (bp 1) with 2. lra.
      - apply bpow_lt. lia. }
    split; [assumption|]. split. { rewrite EA. apply rnd_ge_float. lra. }
    replace (s k * (nth k cur 0 + s k - nth k oc 0))%Z with (j + 1)%Z by (unfold j; destruct Sk as [Sk|Sk]; rewrite Sk; lia).
    assert (EB : border (s k) k (nth k cur 0 + s k)%Z = border (s k) k (nth k cur 0%Z) + Rr).
    { unfold border. rewrite plus_IZR. destruct Sk as [Sk|Sk]; rewrite Sk; field. }
    rewrite EB. apply (eps_step Rr (B2R (nth k tm finf)) (B2R (dl k)) (q k)); try assumption. rewrite EA. apply rnd_add_rel. }
  destruct KS as (KF & KM & KC).
  split; [assumption|]. split; [|split; [exact OLD|split]].
  - constructor.
    + exact LN.
    + unfold next_tm. rewrite <- Lt. exact (upd_length tm _ _).
    + lra.
    + intros i Hi Z. rewrite NC, NT. destruct (Nat.eq_dec k i) as [<-|Ne]; [contradiction|]. now apply H.
    + intros i Hi Z. rewrite NT. destruct (Nat.eq_dec k i) as [<-|Ne]; [assumption|]. now apply (j_fin _ _ _ H).
    + intros i Hi Z. rewrite NC, NT. destruct (Nat.eq_dec k i) as [<-|Ne]; [assumption|]. now apply (j_move _ _ _ H).
    + intros i Hi Z. rewrite NC. destruct (Nat.eq_dec k i) as [<-|Ne]; [|now apply (j_between _ _ _ H)]. destruct Sk as [Sk|Sk]; rewrite Sk in *; lia.
    + apply grown_at; [exact LN|]. intros i Hi. rewrite NC. pose proof (proj1 (grown_at _ _ _ Lc) OLD i Hi) as C.
      destruct (Nat.eq_dec k i) as [<-|Ne]; [|assumption]. 
      pose proof (time_close _ _ _ k H Hk Nk) as TC. fold u in TC. apply Rabs_le_inv in TC, C. unfold border in TC.
      assert (Y : u * Rabs (E k - O k) <= t' * Rabs (E k - O k)) by (apply Rmult_le_compat_r; lra).
      rewrite <- SWk in *. rewrite plus_IZR. apply Rabs_le. destruct Sk as [Sk'|Sk']; rewrite Sk' in *; lra.
    + destruct T0 as [Z|Z]; [now left|right]. intros i Hi Ni. rewrite NT, Z, EU. destruct (Nat.eq_dec k i) as [<-|Ne]; [assumption|]. now apply Min.
  - unfold next_cell. fold k. change (t_to_isize F32A) with f32_to_isize. change (tzero F32A) with f0.
    rewrite manhattan_upd by (rewrite ?(len_oc' d e b r Le Lb); lia).
    destruct Sk as [Sk|Sk]; rewrite Sk in *; lia.
  - destruct (near_coords k Hk) as ([Fo Ao] & _). destruct (cell_of o k Lo Hk Fo Ao) as [_ CO].
    rewrite <- abs_IZR in CO. apply le_IZR in CO.
    unfold in_isize, isize_min, isize_max. apply andb_true_iff. rewrite !Z.leb_le. destruct Sk as [Sk|Sk]; rewrite Sk in *; lia.
Qed.

Lemma reach_loop : forall fuel cur tm t acc, J cur tm t -> cur <> ec -> (manhattan cur ec <= Z.of_nat fuel)%Z ->
  exists path, ray_loop F32A fuel (env o e b r m) cur tm acc = Ret (acc ++ path, Some ec) /\
    (Z.of_nat (length path) = manhattan cur ec - 1)%Z /\
    (forall x, In x (path ++ [ec]) -> exists u, 0 <= u <= 1 /\ in_grown_cell (/ 17) pb Rr x (seg po pe u)) /\
    (forall u y, length y = d -> t <= u <= 1 -> in_grown_cell (- / 16) pb Rr y (seg po pe u) -> In y (cur :: path ++ [ec])).
Proof.
  induction fuel as [|fuel IH]; intros cur tm t acc H N F.
  { exfalso. apply N. apply manhattan_zero. { rewrite (j_len _ _ _ H). symmetry. exact (len_oc' d e b r Le Lb). }
    pose proof (manhattan_nonneg cur ec). lia. }
  rewrite loop_unfold. cbv zeta. destruct (step_J _ _ _ H N) as (t' & TT & H' & OLD & M & I).
  set (k := select_dim F32A tm) in *. change (t_to_isize F32A) with f32_to_isize. change (tzero F32A) with f0. rewrite I.
  assert (Tt' := j_time _ _ _ H'). pose proof (j_len _ _ _ H) as Lc.
  set (nx := next_cell F32A (env o e b r m) cur tm) in *.
  assert (LE : length ec = d) by exact (len_oc' d e b r Le Lb).
  assert (FIRST : forall u y, length y = d -> t <= u <= t' -> in_grown_cell (- / 16) pb Rr y (seg po pe u) -> y = cur).
  { intros u y Ly Hu Oy. symmetry. refine (grown_same cur y u Lc Ly _ Oy).
    exact (grown_convex _ cur t t' u Lc Hu (j_cell _ _ _ H) OLD). }
  change (re_end_cell F32A (env o e b r m)) with ec. destruct (cell_eqb nx ec) eqn:Q.
  - apply cell_eqb_eq in Q. exists []. rewrite app_nil_r. split; [reflexivity|]. split.
    { rewrite Q, manhattan_refl in M. cbn [length]. lia. }
    split.
    + intros x [<-|[]]. exists t'. split; [assumption|]. rewrite <- Q. exact (j_cell _ _ _ H').
    + intros u y Ly Hu Oy. destruct (Rle_or_lt u t') as [U|U].
      * left. symmetry. apply (FIRST u); auto. lra.
      * right. left. refine (grown_same ec y u LE Ly _ Oy).
        apply (grown_convex _ ec t' 1); [exact LE|lra| |exact ec_grown]. rewrite <- Q. exact (j_cell _ _ _ H').
  - apply cell_eqb_neq in Q. rewrite Far.
    destruct (IH _ _ _ (acc ++ [nx]) H' Q ltac:(lia)) as (path & R1 & R2 & R3 & R4).
    exists (nx :: path). rewrite R1. split; [now rewrite <- app_assoc|]. split.
    { cbn [length]. lia. }
    split.
    + intros x [<-|Hx]; [|now apply R3]. exists t'. split; [assumption|]. exact (j_cell _ _ _ H').
    + intros u y Ly Hu Oy. destruct (Rle_or_lt u t') as [U|U].
      * left. symmetry. apply (FIRST u); auto. lra.
      * right. apply (R4 u); auto. lra.
Qed.
End Loop.
End Reach.

Lemma reach_cast : forall d, (d = 2 \/ d = 3)%nat -> forall (o e b : point) (r : f32),
  length o = d -> length e = d -> length b = d -> ray_short r o e b -> end_clear (/ 16) r o e b ->
  let oc := cell_from_point F32A o b r in let ec := cell_from_point F32A e b r in
  forall fuel m, fltb f0 m = false -> (manhattan oc ec <= Z.of_nat fuel)%Z ->
  exists path, cast_ray F32A fuel o e b r m = Ret (path, Some ec) /\
    Z.of_nat (length path) = manhattan oc ec /\
    (forall x, In x (path ++ [ec]) -> exists u, 0 <= u <= 1 /\
       in_grown_cell (/ 16) (map real b) (real r) x (seg (map real o) (map real e) u)) /\
    (forall u y, length y = d -> 0 <= u <= 1 ->
       in_grown_cell (- / 16) (map real b) (real r) y (seg (map real o) (map real e) u) -> In y (path ++ [ec])).
Proof.
  intros d Hd o e b r Lo Le Lb HS HC oc ec fuel m Hm F. rewrite cast_unfold. change (T F32A) with f32. rewrite Lo.
  replace (Nat.eqb d 2 || Nat.eqb d 3)%bool with true by (destruct Hd as [-> | ->]; reflexivity).
  pose proof (r_pos o e b r (proj1 HS)) as Pr.
  assert (GR : forall x p, in_grown_cell (/ 17) (map real b) (real r) x p -> in_grown_cell (/ 16) (map real b) (real r) x p).
  { intros x p H i Hi. eapply Rle_trans; [exact (H i Hi)|]. apply Rmult_le_compat_r; [unfold real|]; lra. }
  pose proof (oc_grown d Hd o e b r Lo Le Lb HS) as GO. pose proof (ec_grown d Hd o e b r Lo Le Lb HS) as GE. fold oc ec in GO, GE |- *.
  assert (LE : length ec = d) by exact (len_oc' d e b r Le Lb).
  destruct (cell_eqb oc ec) eqn:Q.
  - apply cell_eqb_eq in Q. exists []. split; [reflexivity|]. split. { rewrite Q, manhattan_refl. reflexivity. }
    split.
    + intros x [<-|[]]. exists 1. split; [lra|]. apply GR. exact GE.
    + intros u y Ly Hu Oy. left. refine (grown_same d Hd o e b r Lo Le Lb HS ec y u LE Ly _ Oy).
      apply (grown_convex d Hd o e b r Lo Le Lb _ ec 0 1); [exact LE|lra| |exact GE]. rewrite <- Q. exact GO.
  - apply cell_eqb_neq in Q.
    assert (Far : forall c, too_far F32A (env o e b r m) c = false).
    { intro c. unfold too_far. cbn [re_max_len env env_of tltb tzero F32A]. now rewrite Hm. }
    assert (J0 : J d o e b r m oc (tm0 o e b r) 0).
    { constructor; try assumption.
      - exact (len_oc' d o b r Lo Lb). - exact (tm0_len d o e b r Lo Le Lb). - lra.
      - intros i Hi Z. destruct (axis_start d Hd o e b r Lo Le Lb HS Q m i Hi) as [(_ & _ & X & _)|([[_ X]|[_ X]] & _)]; try lra.
        split; [exact X|]. destruct (near_coords d Hd o e b r Lo Le Lb HS i Hi) as ([Fo _] & [Fe _] & _).
        refine (eq_trans (nth_cell d b r Lb o i Lo Hi) (eq_trans _ (eq_sym (nth_cell d b r Lb e i Le Hi)))).
        apply same_real_cell; try assumption. exact (r_pos_b o e b r (proj1 HS)).
      - intros i Hi Z. destruct (axis_start d Hd o e b r Lo Le Lb HS Q m i Hi) as [(X & _)|(_ & X & _)]; [contradiction|exact X].
      - intros i Hi Z. fold oc. rewrite Z.sub_diag, Z.mul_0_r. 
        destruct (axis_start d Hd o e b r Lo Le Lb HS Q m i Hi) as [(X & _)|(_ & _ & X & _)]; [contradiction|exact X].
      - intros i Hi Z. fold oc ec. rewrite Z.sub_diag, Z.mul_0_r. pose proof (ends_order d Hd o e b r Lo Le Lb HS Q m i Hi Z). fold oc ec in H. lia.
      - now left. }
    destruct (reach_loop d Hd o e b r Lo Le Lb HS Q HC m Far fuel oc (tm0 o e b r) 0 [oc] J0 Q F) as (path & R1 & R2 & R3 & R4).
    exists (oc :: path). split; [exact R1|]. split; [cbn [length]; unfold oc, ec in *; lia|]. split; [|exact R4].
    intros x [<-|Hx]; [exists 0; split; [lra|]; apply GR; exact GO|]. destruct (R3 x Hx) as (u & Hu & G). exists u. split; [assumption|]. now apply GR.
Qed.
