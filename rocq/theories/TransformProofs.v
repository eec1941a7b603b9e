(** How far the f32 transformation of a cloud is from the exact one. *)
From Coq Require Import ZArith List Bool Reals Lra Lia Psatz.
From Flocq Require Import Core BinarySingleNaN.
From Verif Require Import Base F32 FloatFacts RoundError Arith Geom Spec MathProofs ConverterProofs GeomProofs BoundsProofs CloudProofs.
Open Scope R_scope.

(** one product of a row *)
Lemma term_err : forall m c : f32, is_finite m = true -> is_finite c = true ->
  Rabs (B2R m) <= bp 40 -> Rabs (B2R c) <= bp 40 ->
  is_finite (fmul (fmul f1 m) c) = true /\
  Rabs (B2R (fmul (fmul f1 m) c) - B2R m * B2R c) <= u32 * Rabs (B2R m * B2R c) + bp (-150) /\
  Rabs (B2R m * B2R c) <= bp 80.
Proof.
  intros m c Fm Fc Hm Hc. destruct (fmul_1_l m Fm) as [G E].
  assert (P : Rabs (B2R m * B2R c) <= bp 80).
  { rewrite Rabs_mult. change 80%Z with (40 + 40)%Z. rewrite bpow_plus.
    apply Rmult_le_compat; try apply Rabs_pos; assumption. }
  destruct (fmul_fin (fmul f1 m) c G Fc) as [G' E'].
  { rewrite E. apply rnd_abs_lt_128. apply Rle_trans with (1 := P). apply bpow_le. lia. }
  split; [assumption|]. rewrite E', E. split; [apply rnd_err|assumption].
Qed.

(** one addition *)
Lemma step_err : forall y acc : f32, is_finite y = true -> is_finite acc = true ->
  Rabs (B2R y) <= bp 100 -> Rabs (B2R acc) <= bp 100 ->
  is_finite (fadd y (fmul f1 acc)) = true /\
  Rabs (B2R (fadd y (fmul f1 acc)) - (B2R y + B2R acc)) <= u32 * (Rabs (B2R y) + Rabs (B2R acc)).
Proof.
  intros y acc Fy Fa Hy Ha. destruct (fmul_1_l acc Fa) as [G E].
  assert (P : Rabs (B2R y + B2R acc) <= Rabs (B2R y) + Rabs (B2R acc)) by apply Rabs_triang.
  destruct (fadd_fin y (fmul f1 acc) Fy G) as [G' E'].
  { rewrite E. apply rnd_abs_lt_128. apply Rle_trans with (bp 101).
    - change 101%Z with (100 + 1)%Z. rewrite bpow_plus. change (bp 1) with 2. lra.
    - apply bpow_le. lia. }
  split; [assumption|]. rewrite E'. rewrite E.
  pose proof (rnd_add_rel y acc) as R. apply Rle_trans with (1 := R).
  apply Rmult_le_compat_l; [unfold u32; lra|assumption].
Qed.

Lemma row_err : forall a b c t x y z : f32,
  Forall (fun v => is_finite v = true /\ Rabs (B2R v) <= bp 40) [a; b; c; t; x; y; z] ->
  is_finite (gemv_row F32A [a; b; c; t] [x; y; z; f1]) = true /\
  Rabs (B2R (gemv_row F32A [a; b; c; t] [x; y; z; f1]) -
        (B2R a * B2R x + B2R b * B2R y + B2R c * B2R z + B2R t)) <=
    5 * u32 * (Rabs (B2R a * B2R x) + Rabs (B2R b * B2R y) + Rabs (B2R c * B2R z) + Rabs (B2R t)) + bp (-147).
Proof.
  intros a b c t x y z H.
  repeat match goal with H : Forall _ (_ :: _) |- _ => inversion_clear H end.
  repeat match goal with H : _ /\ _ |- _ => destruct H end.
  assert (F1 : Rabs (B2R f1) <= bp 40).
  { rewrite f1_real, Rabs_R1. change 1 with (bp 0). apply bpow_le. lia. }
  unfold gemv_row. cbn [map2 fold_left tmul tadd tone tzero F32A].
  destruct (term_err a x) as (A1 & A2 & A3); try assumption.
  destruct (term_err b y) as (B1 & B2 & B3); try assumption.
  destruct (term_err c z) as (C1 & C2 & C3); try assumption.
  destruct (term_err t f1) as (D1 & D2 & D3); try assumption. apply f1_fin.
  rewrite f1_real, Rmult_1_r in D2, D3.
  set (P1 := fmul (fmul f1 a) x) in *. set (P2 := fmul (fmul f1 b) y) in *.
  set (P3 := fmul (fmul f1 c) z) in *. set (P4 := fmul (fmul f1 t) f1) in *.
  clearbody P1 P2 P3 P4.
  set (p1 := B2R a * B2R x) in *. set (p2 := B2R b * B2R y) in *. set (p3 := B2R c * B2R z) in *.
  set (p4 := B2R t) in *. clearbody p1 p2 p3 p4.
  assert (T : bp (-147) = 8 * bp (-150)).
  { change (-147)%Z with (-150 + 3)%Z. rewrite bpow_plus. change (bp 3) with 8. ring. }
  assert (T0 : 0 < bp (-150)) by apply bpow_gt_0.
  assert (T1 : bp (-150) <= 1) by (change 1 with (bp 0); apply bpow_le; lia).
  assert (T2 : 1 <= bp 80) by (change 1 with (bp 0); apply bpow_le; lia).
  assert (T3 : 64 * bp 80 <= bp 100).
  { change 64 with (bp 6). rewrite <- bpow_plus. apply bpow_le. lia. }
  rewrite T. clear T.
  assert (EU : u32 = / 16777216) by reflexivity. rewrite EU in A2, B2, C2, D2 |- *.
  pose proof (Rabs_pos p1). pose proof (Rabs_pos p2). pose proof (Rabs_pos p3). pose proof (Rabs_pos p4).
  assert (AB : forall v w, Rabs v <= Rabs w + Rabs (v - w)).
  { intros v w. replace v with (w + (v - w)) at 1 by ring. apply Rabs_triang. }
  pose proof (AB (B2R P1) p1) as Q1. pose proof (AB (B2R P2) p2) as Q2.
  pose proof (AB (B2R P3) p3) as Q3. pose proof (AB (B2R P4) p4) as Q4.
  destruct (step_err P2 P1) as [E1 E2]; [assumption|assumption|lra|lra|]. rewrite EU in E2.
  set (s2 := fadd P2 (fmul f1 P1)) in *. clearbody s2.
  pose proof (AB (B2R s2) (B2R P2 + B2R P1)) as Q5. pose proof (Rabs_triang (B2R P2) (B2R P1)).
  destruct (step_err P3 s2) as [E3 E4]; [assumption|assumption|lra|lra|]. rewrite EU in E4.
  set (s3 := fadd P3 (fmul f1 s2)) in *. clearbody s3.
  pose proof (AB (B2R s3) (B2R P3 + B2R s2)) as Q6. pose proof (Rabs_triang (B2R P3) (B2R s2)).
  destruct (step_err P4 s3) as [E5 E6]; [assumption|assumption|lra|lra|]. rewrite EU in E6.
  set (s4 := fadd P4 (fmul f1 s3)) in *. clearbody s4.
  split; [assumption|].
  replace (B2R s4 - (p1 + p2 + p3 + p4)) with
    ((B2R s4 - (B2R P4 + B2R s3)) + ((B2R s3 - (B2R P3 + B2R s2)) + ((B2R s2 - (B2R P2 + B2R P1)) +
     ((B2R P1 - p1) + ((B2R P2 - p2) + ((B2R P3 - p3) + (B2R P4 - p4))))))) by ring.
  do 6 (match goal with |- Rabs (?x + ?y) <= ?z =>
          apply Rle_trans with (1 := Rabs_triang x y); apply Rplus_le_reg_l with (- Rabs x);
          replace (- Rabs x + (Rabs x + Rabs y)) with (Rabs y) by ring end).
  lra.
Qed.

Lemma row_near : forall (row : list f32) (p : point), length row = 4%nat -> length p = 3%nat ->
  Forall moderate row -> Forall moderate p -> near_affine row p (gemv_row F32A row (p ++ [f1])).
Proof.
  intros row p Lr Lp Hr Hp.
  destruct row as [|a [|b [|c [|t [|]]]]]; try discriminate Lr.
  destruct p as [|x [|y [|z [|]]]]; try discriminate Lp.
  destruct (row_err a b c t x y z) as [A B].
  { change [a; b; c; t; x; y; z] with ([a; b; c; t] ++ [x; y; z]). apply Forall_app. now split. }
  split; [exact A|]. rewrite u32_bp. unfold affine, affine_size, real.
  cbn [map map2 app fold_right]. rewrite !Rmult_1_r, !Rplus_0_r.
  replace (B2R a * B2R x + (B2R b * B2R y + (B2R c * B2R z + B2R t))) with
    (B2R a * B2R x + B2R b * B2R y + B2R c * B2R z + B2R t) by ring.
  replace (Rabs (B2R a * B2R x) + (Rabs (B2R b * B2R y) + (Rabs (B2R c * B2R z) + Rabs (B2R t)))) with
    (Rabs (B2R a * B2R x) + Rabs (B2R b * B2R y) + Rabs (B2R c * B2R z) + Rabs (B2R t)) by ring.
  exact B.
Qed.

Lemma points_all : forall (P : f32 -> Prop) m, Forall P (mdata m) -> Forall (Forall P) (pc_points m).
Proof.
  intros P m F. apply Forall_forall. intros p Hp. apply in_map_iff in Hp. destruct Hp as (j & <- & _).
  apply Forall_forall. intros x Hx. rewrite Forall_forall in F. apply F.
  unfold mcol in Hx. rewrite <- (firstn_skipn (j * nrows m) (mdata m)). apply in_or_app. right.
  rewrite <- (firstn_skipn (nrows m) (skipn _ _)). apply in_or_app. now left.
Qed.

Lemma transform_near : forall r1 r2 r3 r4 (p : point), length p = 3%nat -> Forall moderate p ->
  Forall (fun row => length row = 4%nat /\ Forall moderate row) [r1; r2; r3] ->
  exists v1 v2 v3, transform_col F32A [r1; r2; r3; r4] p = [v1; v2; v3] /\
    near_affine r1 p v1 /\ near_affine r2 p v2 /\ near_affine r3 p v3.
Proof.
  intros r1 r2 r3 r4 p Lp Hp H.
  repeat match goal with H : Forall _ (_ :: _) |- _ => inversion_clear H end.
  repeat match goal with H : _ /\ _ |- _ => destruct H end.
  eexists _, _, _. split; [reflexivity|].
  split; [|split]; apply row_near; assumption.
Qed.

Lemma transform_error : forall r1 r2 r3 r4 m, matrix_ok m -> nrows m = 3%nat ->
  Forall moderate (mdata m) ->
  Forall (fun row => length row = 4%nat /\ Forall moderate row) [r1; r2; r3] ->
  Forall2 (fun p q => exists v1 v2 v3, q = [v1; v2; v3] /\
      near_affine r1 p v1 /\ near_affine r2 p v2 /\ near_affine r3 p v3)
    (pc_points m) (pc_points (pc_transform [r1; r2; r3; r4] m)).
Proof.
  intros r1 r2 r3 r4 m H R3 F HR.
  destruct (transform_points [r1; r2; r3; r4] m H) as (_ & _ & _ & ->). now rewrite R3.
  apply Forall2_map_r. intros p Hp.
  apply transform_near; [|exact (proj1 (Forall_forall _ _) (points_all _ _ F) p Hp)|assumption].
  pose proof (pc_points_length m H) as L. rewrite Forall_forall in L. rewrite <- R3. now apply L.
Qed.

(** ** Distances *)
Definition norm3 (x y z : R) : R := sqrt (x * x + y * y + z * z).

Lemma norm3_sq : forall x y z, norm3 x y z * norm3 x y z = x * x + y * y + z * z.
Proof. intros. apply sqrt_sqrt. nra. Qed.
Lemma norm3_pos : forall x y z, 0 <= norm3 x y z.
Proof. intros. apply sqrt_pos. Qed.

Lemma sq_le : forall a b, 0 <= b -> a * a <= b * b -> a <= b.
Proof. intros a b Hb H. apply Rnot_lt_le. intro. nra. Qed.

Lemma cauchy : forall a b c x y z, a * x + b * y + c * z <= norm3 a b c * norm3 x y z.
Proof.
  intros. apply sq_le. apply Rmult_le_pos; apply norm3_pos.
  replace (norm3 a b c * norm3 x y z * (norm3 a b c * norm3 x y z)) with
    ((norm3 a b c * norm3 a b c) * (norm3 x y z * norm3 x y z)) by ring. rewrite !norm3_sq.
  pose proof (Rle_0_sqr (a * y - b * x)).
  pose proof (Rle_0_sqr (a * z - c * x)).
  pose proof (Rle_0_sqr (b * z - c * y)). unfold Rsqr in *. lra.
Qed.

Lemma norm3_triang : forall a b c x y z, norm3 (a + x) (b + y) (c + z) <= norm3 a b c + norm3 x y z.
Proof.
  intros. pose proof (norm3_pos a b c). pose proof (norm3_pos x y z). apply sq_le. lra.
  rewrite norm3_sq. pose proof (norm3_sq a b c). pose proof (norm3_sq x y z).
  pose proof (cauchy a b c x y z). lra.
Qed.

Lemma norm3_bound : forall x y z d, 0 <= d -> Rabs x <= d -> Rabs y <= d -> Rabs z <= d ->
  norm3 x y z <= 7/4 * d.
Proof.
  intros x y z d Hd Hx Hy Hz. apply sq_le. lra. rewrite norm3_sq.
  assert (S : forall v, Rabs v <= d -> v * v <= d * d).
  { intros v Hv. apply Rabs_le_inv in Hv. nra. }
  pose proof (S x Hx). pose proof (S y Hy). pose proof (S z Hz). assert (0 <= d * d) by nra. lra.
Qed.

(** applying a nearly orthonormal matrix *)
Lemma near_rigid_norm : forall d a1 a2 a3 b1 b2 b3 c1 c2 c3 x y z, 0 <= d ->
  near_rigid d (a1, a2, a3) (b1, b2, b3) (c1, c2, c3) ->
  Rabs (norm3 (a1 * x + a2 * y + a3 * z) (b1 * x + b2 * y + b3 * z) (c1 * x + c2 * y + c3 * z) - norm3 x y z)
    <= 3 * d * norm3 x y z.
Proof.
  intros d a1 a2 a3 b1 b2 b3 c1 c2 c3 x y z Hd (H1 & H2 & H3 & H4 & H5 & H6). unfold dot3 in *.
  set (A := norm3 (a1 * x + a2 * y + a3 * z) _ _). set (B := norm3 x y z).
  assert (HA : 0 <= A) by apply norm3_pos. assert (HB : 0 <= B) by apply norm3_pos.
  assert (E : Rabs (A * A - B * B) <= 3 * d * (B * B)).
  { unfold A, B. rewrite !norm3_sq.
    set (g1 := a1 * a1 + b1 * b1 + c1 * c1 - 1) in *. set (g2 := a2 * a2 + b2 * b2 + c2 * c2 - 1) in *.
    set (g3 := a3 * a3 + b3 * b3 + c3 * c3 - 1) in *. set (g4 := a1 * a2 + b1 * b2 + c1 * c2) in *.
    set (g5 := a1 * a3 + b1 * b3 + c1 * c3) in *. set (g6 := a2 * a3 + b2 * b3 + c2 * c3) in *.
    match goal with |- Rabs ?t <= _ => replace t with
      (g1 * (x * x) + g2 * (y * y) + g3 * (z * z) + g4 * (2 * x * y) + g5 * (2 * x * z) + g6 * (2 * y * z))
      by (unfold g1, g2, g3, g4, g5, g6; ring) end.
    clearbody g1 g2 g3 g4 g5 g6. clear - H1 H2 H3 H4 H5 H6 Hd.
    assert (S : forall g w W, Rabs g <= d -> Rabs w <= W -> Rabs (g * w) <= d * W).
    { intros. rewrite Rabs_mult. apply Rmult_le_compat; try apply Rabs_pos; assumption. }
    assert (Q : forall v, Rabs (v * v) <= v * v).
    { intro v. pose proof (Rle_0_sqr v) as V. unfold Rsqr in V. rewrite Rabs_pos_eq; lra. }
    assert (X : forall v w, Rabs (2 * v * w) <= v * v + w * w).
    { intros v w. pose proof (Rle_0_sqr (v + w)). pose proof (Rle_0_sqr (v - w)). unfold Rsqr in *.
      apply Rabs_le. split; lra. }
    pose proof (S _ _ _ H1 (Q x)). pose proof (S _ _ _ H2 (Q y)). pose proof (S _ _ _ H3 (Q z)).
    pose proof (S _ _ _ H4 (X x y)). pose proof (S _ _ _ H5 (X x z)). pose proof (S _ _ _ H6 (X y z)).
    do 5 (match goal with |- Rabs (?x + ?y) <= ?z =>
          apply Rle_trans with (1 := Rabs_triang x y); apply Rplus_le_reg_r with (- Rabs y);
          replace (Rabs x + Rabs y + - Rabs y) with (Rabs x) by ring end). lra. }
  clearbody A B. destruct (Req_dec B 0) as [->|NB].
  { rewrite Rmult_0_r, Rminus_0_r, Rmult_0_r, Rabs_pos_eq in E by nra.
    rewrite Rminus_0_r, Rmult_0_r, Rabs_pos_eq by assumption. nra. }
  apply Rmult_le_reg_r with (A + B). lra.
  replace (Rabs (A - B) * (A + B)) with (Rabs (A * A - B * B)).
  2:{ replace (A * A - B * B) with ((A - B) * (A + B)) by ring. rewrite Rabs_mult. f_equal. apply Rabs_pos_eq. lra. }
  apply Rle_trans with (1 := E). replace (3 * d * B * (A + B)) with (3 * d * (B * B) + 3 * d * (A * B)) by ring.
  assert (0 <= d * (A * B)) by (apply Rmult_le_pos; [assumption|apply Rmult_le_pos; assumption]). lra.
Qed.

Lemma near_rigid_entries : forall d a1 a2 a3 b1 b2 b3 c1 c2 c3, d <= bp (-10) ->
  near_rigid d (a1, a2, a3) (b1, b2, b3) (c1, c2, c3) ->
  Forall (fun x => Rabs x <= 1001/1000) [a1; a2; a3; b1; b2; b3; c1; c2; c3].
Proof.
  intros d a1 a2 a3 b1 b2 b3 c1 c2 c3 Hd (H1 & H2 & H3 & _). unfold dot3 in *.
  assert (D : d <= / 1024) by exact Hd.
  assert (K : forall u v w, Rabs (u * u + v * v + w * w - 1) <= d ->
    Rabs u <= 1001/1000 /\ Rabs v <= 1001/1000 /\ Rabs w <= 1001/1000).
  { intros u v w H. apply Rabs_le_inv in H. repeat split; apply Rabs_le; split; nra. }
  destruct (K _ _ _ H1) as (? & ? & ?). destruct (K _ _ _ H2) as (? & ? & ?).
  destruct (K _ _ _ H3) as (? & ? & ?). repeat (apply Forall_cons; [assumption|]). apply Forall_nil.
Qed.

Lemma norm3_perturb : forall a b c x y z, Rabs (norm3 (a + x) (b + y) (c + z) - norm3 a b c) <= norm3 x y z.
Proof.
  intros. pose proof (norm3_triang a b c x y z) as H1.
  pose proof (norm3_triang (a + x) (b + y) (c + z) (- x) (- y) (- z)) as H2.
  replace (a + x + - x) with a in H2 by ring. replace (b + y + - y) with b in H2 by ring.
  replace (c + z + - z) with c in H2 by ring.
  replace (norm3 (- x) (- y) (- z)) with (norm3 x y z) in H2 by (unfold norm3; f_equal; ring).
  apply Rabs_le. lra.
Qed.

(** one row of a nearly rigid matrix *)
Lemma row_bound : forall D (row p : list f32) v, length row = 4%nat -> length p = 3%nat -> 0 <= D ->
  Rabs (real (nth 0 row f0)) <= 1001/1000 -> Rabs (real (nth 1 row f0)) <= 1001/1000 ->
  Rabs (real (nth 2 row f0)) <= 1001/1000 -> Rabs (real (nth 3 row f0)) <= D ->
  Forall (fun x => Rabs (real x) <= D) p -> near_affine row p v ->
  Rabs (real v - (dot3 (triple row) (triple p) + real (nth 3 row f0))) <= 5 * u32 * (401/100 * D) + bp (-147).
Proof.
  intros D row p v Lr Lp HD H0 H1 H2 H3 Hp [_ N].
  destruct row as [|a [|b [|c [|t [|]]]]]; try discriminate Lr.
  destruct p as [|x [|y [|z [|]]]]; try discriminate Lp.
  cbn [nth] in *. inversion_clear Hp as [|? ? X Hq]. inversion_clear Hq as [|? ? Y Hr]. inversion_clear Hr as [|? ? Z _].
  unfold affine, affine_size in N. cbn [map map2 app fold_right] in N.
  rewrite !Rmult_1_r, !Rplus_0_r in N. unfold triple, dot3. cbn [nth].
  replace (real a * real x + real b * real y + real c * real z + real t) with
    (real a * real x + (real b * real y + (real c * real z + real t))) by ring.
  apply Rle_trans with (1 := N). rewrite u32_bp. apply Rplus_le_compat_r.
  apply Rmult_le_compat_l; [unfold u32; lra|].
  assert (M : forall m w, Rabs m <= 1001/1000 -> Rabs w <= D -> Rabs (m * w) <= 1001/1000 * D).
  { intros. rewrite Rabs_mult. apply Rmult_le_compat; try apply Rabs_pos; assumption. }
  pose proof (M _ _ H0 X). pose proof (M _ _ H1 Y). pose proof (M _ _ H2 Z). lra.
Qed.

Lemma transform_distances : forall r1 r2 r3 r4 d D m i j p q p' q',
  matrix_ok m -> nrows m = 3%nat ->
  Forall (fun row => length row = 4%nat /\ Forall moderate row) [r1; r2; r3] ->
  Forall moderate (mdata m) -> Forall (fun x => Rabs (real x) <= D) (mdata m) ->
  Forall (fun row => Rabs (real (nth 3 row f0)) <= D) [r1; r2; r3] ->
  0 <= d <= bp (-10) -> near_rigid d (triple r1) (triple r2) (triple r3) ->
  nth_error (pc_points m) i = Some p -> nth_error (pc_points m) j = Some q ->
  nth_error (pc_points (pc_transform [r1; r2; r3; r4] m)) i = Some p' ->
  nth_error (pc_points (pc_transform [r1; r2; r3; r4] m)) j = Some q' ->
  Rabs (sqrt (dist2 (triple p') (triple q')) - sqrt (dist2 (triple p) (triple q))) <=
    3 * d * sqrt (dist2 (triple p) (triple q)) + 72 * bp (-24) * D + bp (-140).
Proof.
  intros r1 r2 r3 r4 d D m i j p q p' q' H R3 HR F FD HT Hd HN Ep Eq Ep' Eq'.
  destruct (transform_points [r1; r2; r3; r4] m H) as (_ & _ & _ & E). now rewrite R3.
  rewrite E in Ep', Eq'. rewrite (map_nth_error _ _ _ Ep) in Ep'. rewrite (map_nth_error _ _ _ Eq) in Eq'.
  injection Ep' as <-. injection Eq' as <-. clear E.
  apply nth_error_In in Ep. apply nth_error_In in Eq.
  pose proof (pc_points_length m H) as L. rewrite Forall_forall in L. rewrite R3 in L.
  pose proof (L p Ep) as Lp. pose proof (L q Eq) as Lq. clear L.
  pose proof (points_all _ _ F) as Fm. rewrite Forall_forall in Fm.
  pose proof (points_all _ _ FD) as Fd. rewrite Forall_forall in Fd.
  pose proof (Fd p Ep) as Dp. pose proof (Fd q Eq) as Dq.
  destruct (transform_near r1 r2 r3 r4 p Lp (Fm p Ep) HR) as (v1 & v2 & v3 & -> & V1 & V2 & V3).
  destruct (transform_near r1 r2 r3 r4 q Lq (Fm q Eq) HR) as (w1 & w2 & w3 & -> & W1 & W2 & W3).
  assert (HL : length r1 = 4%nat /\ length r2 = 4%nat /\ length r3 = 4%nat).
  { rewrite Forall_forall in HR. repeat split; apply HR; cbn; auto. }
  destruct HL as (L1 & L2 & L3).
  assert (HT' : Rabs (real (nth 3 r1 f0)) <= D /\ Rabs (real (nth 3 r2 f0)) <= D /\ Rabs (real (nth 3 r3 f0)) <= D).
  { rewrite Forall_forall in HT. repeat split; apply HT; cbn; auto. }
  destruct HT' as (T1 & T2 & T3).
  assert (HD : 0 <= D) by (apply Rle_trans with (2 := T1); apply Rabs_pos).
  pose proof (near_rigid_entries _ _ _ _ _ _ _ _ _ _ (proj2 Hd) HN) as HE. rewrite Forall_forall in HE.
  assert (B : forall (p : point) v1 v2 v3, length p = 3%nat -> Forall (fun x => Rabs (real x) <= D) p ->
    near_affine r1 p v1 -> near_affine r2 p v2 -> near_affine r3 p v3 ->
    Rabs (real v1 - (dot3 (triple r1) (triple p) + real (nth 3 r1 f0))) <= 5 * u32 * (401/100 * D) + bp (-147) /\
    Rabs (real v2 - (dot3 (triple r2) (triple p) + real (nth 3 r2 f0))) <= 5 * u32 * (401/100 * D) + bp (-147) /\
    Rabs (real v3 - (dot3 (triple r3) (triple p) + real (nth 3 r3 f0))) <= 5 * u32 * (401/100 * D) + bp (-147)).
  { intros. split; [|split]; apply row_bound; try assumption; apply HE; cbn; tauto. }
  destruct (B p v1 v2 v3 Lp Dp V1 V2 V3) as (X1 & X2 & X3).
  destruct (B q w1 w2 w3 Lq Dq W1 W2 W3) as (Y1 & Y2 & Y3).
  clear B HE. assert (EU : u32 = / 16777216) by reflexivity.
  set (eps := 5 * u32 * (401 / 100 * D) + bp (-147)) in *.
  change (triple [v1; v2; v3]) with (real v1, real v2, real v3).
  change (triple [w1; w2; w3]) with (real w1, real w2, real w3).
  unfold triple in HN, X1, X2, X3, Y1, Y2, Y3 |- *. unfold dot3 in X1, X2, X3, Y1, Y2, Y3. unfold dist2.
  set (a1 := real (nth 0 r1 f0)) in *. set (a2 := real (nth 1 r1 f0)) in *. set (a3 := real (nth 2 r1 f0)) in *.
  set (b1 := real (nth 0 r2 f0)) in *. set (b2 := real (nth 1 r2 f0)) in *. set (b3 := real (nth 2 r2 f0)) in *.
  set (c1 := real (nth 0 r3 f0)) in *. set (c2 := real (nth 1 r3 f0)) in *. set (c3 := real (nth 2 r3 f0)) in *.
  set (t1 := real (nth 3 r1 f0)) in *. set (t2 := real (nth 3 r2 f0)) in *. set (t3 := real (nth 3 r3 f0)) in *.
  set (p1 := real (nth 0 p f0)) in *. set (p2 := real (nth 1 p f0)) in *. set (p3 := real (nth 2 p f0)) in *.
  set (q1 := real (nth 0 q f0)) in *. set (q2 := real (nth 1 q f0)) in *. set (q3 := real (nth 2 q f0)) in *.
  pose proof (near_rigid_norm d a1 a2 a3 b1 b2 b3 c1 c2 c3 (p1 - q1) (p2 - q2) (p3 - q3) (proj1 Hd) HN) as N1.
  set (m1 := a1 * (p1 - q1) + a2 * (p2 - q2) + a3 * (p3 - q3)) in *.
  set (m2 := b1 * (p1 - q1) + b2 * (p2 - q2) + b3 * (p3 - q3)) in *.
  set (m3 := c1 * (p1 - q1) + c2 * (p2 - q2) + c3 * (p3 - q3)) in *.
  pose proof (norm3_perturb m1 m2 m3 (real v1 - real w1 - m1) (real v2 - real w2 - m2) (real v3 - real w3 - m3)) as N2.
  replace (m1 + (real v1 - real w1 - m1)) with (real v1 - real w1) in N2 by ring.
  replace (m2 + (real v2 - real w2 - m2)) with (real v2 - real w2) in N2 by ring.
  replace (m3 + (real v3 - real w3 - m3)) with (real v3 - real w3) in N2 by ring.
  assert (HB : bp (-140) = 128 * bp (-147)).
  { change (-140)%Z with (-147 + 7)%Z. rewrite bpow_plus. change (bp 7) with 128. ring. }
  assert (H0 : 0 < bp (-147)) by apply bpow_gt_0.
  assert (N3 : norm3 (real v1 - real w1 - m1) (real v2 - real w2 - m2) (real v3 - real w3 - m3) <= 7/4 * (2 * eps)).
  { apply norm3_bound.
    - unfold eps. rewrite EU. lra.
    - apply Rabs_le_inv in X1. apply Rabs_le_inv in Y1. apply Rabs_le. unfold m1. lra.
    - apply Rabs_le_inv in X2. apply Rabs_le_inv in Y2. apply Rabs_le. unfold m2. lra.
    - apply Rabs_le_inv in X3. apply Rabs_le_inv in Y3. apply Rabs_le. unfold m3. lra. }
  fold (norm3 (p1 - q1) (p2 - q2) (p3 - q3)).
  fold (norm3 (real v1 - real w1) (real v2 - real w2) (real v3 - real w3)).
  rewrite u32_bp, HB. unfold eps in N3. rewrite EU in N3 |- *.
  set (NA := norm3 (real v1 - real w1) (real v2 - real w2) (real v3 - real w3)) in *.
  set (NB := norm3 (p1 - q1) (p2 - q2) (p3 - q3)) in *. set (NM := norm3 m1 m2 m3) in *.
  set (NE := norm3 (real v1 - real w1 - m1) (real v2 - real w2 - m2) (real v3 - real w3 - m3)) in *.
  set (k := 3 * d * NB) in *. clearbody NA NB NM NE k. clear - N1 N2 N3 HD H0.
  apply Rabs_le_inv in N1. apply Rabs_le_inv in N2. apply Rabs_le. lra.
Qed.
