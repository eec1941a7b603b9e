(** C88, C89: a ray with its sensor, its end and the corner of the map moved, in f32 arithmetic. *)
From Coq Require Import ZArith List Bool Reals Lra Lia Psatz.
From Flocq Require Import Core BinarySingleNaN.
From Verif Require Import Base F32 FloatFacts RoundError Arith Geom RayCaster Spec SpecShift MathProofs ConverterProofs BoundsProofs RayProofs CastProofs RayRange ShiftProofs ShiftFloatProofs.
Open Scope R_scope.

(** ** Differences that are zero *)
Lemma nonzero_same : forall x y : f32, is_finite x = true -> is_finite y = true -> B2R x = B2R y -> B2R x <> 0 -> x = y.
Proof.
  intros x y Fx Fy E N. apply B2R_inj; [| |exact E].
  - destruct x; try discriminate; try reflexivity. exfalso. apply N. reflexivity.
  - destruct y; try discriminate; try reflexivity. exfalso. apply N. rewrite E. reflexivity.
Qed.
Lemma is_zero : forall x : f32, is_finite x = true -> B2R x = 0 -> exists s, x = B754_zero s.
Proof. intros [s| | |s m e B] F E; try discriminate; [now exists s|]. exfalso. apply eq_0_F2R in E. destruct s; discriminate. Qed.

Lemma sum_sign : forall x y : f32, is_finite x = true -> is_finite y = true -> B2R y <> 0 -> B2R x + B2R y = 0 -> Bsign (fadd x y) = false.
Proof.
  intros x y Fx Fy N E. pose proof (Bplus_correct 24 128 _ _ mode_NE x y Fx Fy) as C. unfold fadd. rewrite E in C. rewrite round_0 in C by auto with typeclass_instances.
  rewrite Rabs_R0, Rlt_bool_true in C by apply bpow_gt_0. destruct C as (_ & _ & S). rewrite S, Rcompare_Eq by reflexivity.
  destruct x as [sx| | |sx mx ex Bx]; try discriminate; destruct y as [sy| | |sy my ey By]; try discriminate; cbn [Bsign B2R] in *.
  - exfalso. apply N. reflexivity.
  - exfalso. apply N. lra.
  - exfalso. apply N. reflexivity.
  - destruct sx, sy; try reflexivity. exfalso. assert (X : F2R (Float radix2 (cond_Zopp true (Zpos mx)) ex) < 0) by (apply F2R_lt_0; reflexivity).
    assert (Y : F2R (Float radix2 (cond_Zopp true (Zpos my)) ey) < 0) by (apply F2R_lt_0; reflexivity). lra.
Qed.
Lemma difference_zero : forall x y : f32, is_finite x = true -> is_finite y = true -> B2R x = B2R y -> Bsign x = false \/ B2R x <> 0 -> fsub x y = f0.
Proof.
  intros x y Fx Fy E H. pose proof (Bminus_correct 24 128 _ _ mode_NE x y Fx Fy) as C. unfold fsub. replace (B2R x - B2R y) with 0 in C by lra. rewrite round_0 in C by auto with typeclass_instances.
  rewrite Rabs_R0, Rlt_bool_true in C by apply bpow_gt_0. destruct C as (V & F & S). rewrite Rcompare_Eq in S by reflexivity.
  destruct (is_zero _ F V) as [s Q]. rewrite Q in S |- *. cbn [Bsign] in S. subst s. unfold f0. f_equal. destruct H as [->|N]; [reflexivity|].
  rewrite (nonzero_same x y Fx Fy E N). now destruct (Bsign y).
Qed.
(** The same number, or zero twice. *)
Definition same_number (x y : f32) : Prop := x = y \/ (exists s s', x = B754_zero s /\ y = B754_zero s').
Lemma same_value : forall x y : f32, is_finite x = true -> is_finite y = true -> B2R x = B2R y -> same_number x y.
Proof.
  intros x y Fx Fy E. destruct (Req_dec (B2R x) 0) as [Z0|Z0].
  - right. destruct (is_zero x Fx Z0) as [s ->]. destruct (is_zero y Fy) as [s' ->]; [lra|]. now exists s, s'.
  - left. now apply nonzero_same.
Qed.
Lemma same_quotient : forall x y l : f32, same_number x y -> same_number (fdiv x l) (fdiv y l).
Proof.
  intros x y l [->|(s & s' & -> & ->)]; [now left|]. destruct l as [t|t| |t m e B]; cbn.
  - left. reflexivity.
  - right. now exists (xorb s t), (xorb s' t).
  - left. reflexivity.
  - right. now exists (xorb s t), (xorb s' t).
Qed.
Lemma same_signum : forall x y, same_number x y -> signum1 F32A x = signum1 F32A y.
Proof. intros x y [->|(s & s' & -> & ->)]; [reflexivity|]. destruct s, s'; reflexivity. Qed.
Lemma zero_signum : forall x y, same_number x y -> x = y \/ signum1 F32A x = f0.
Proof. intros x y [->|(s & s' & -> & ->)]; [now left|]. right. destruct s; reflexivity. Qed.

Section Move.
Context (d : nat) (q k : Z) (o e b o' e' b' : point) (r : f32) (w : cell).
Hypothesis Hd : (d = 2 \/ d = 3)%nat.
Hypothesis Hq : (-60 <= q <= 30)%Z.
Hypothesis Lo : length o = d.
Hypothesis Le : length e = d.
Hypothesis Lb : length b = d.
Hypothesis Lo' : length o' = d.
Hypothesis Le' : length e' = d.
Hypothesis Lb' : length b' = d.
Hypothesis Lw : length w = d.
Hypothesis Hk : (1 <= k <= 2 ^ 20)%Z.
Hypothesis Hr : isu q (2 * k) r.
Hypothesis Uo : Forall (units q) o.
Hypothesis Ue : Forall (units q) e.
Hypothesis Ub : Forall (units q) b.
Hypothesis Uo' : Forall (units q) o'.
Hypothesis Ue' : Forall (units q) e'.
Hypothesis Ub' : Forall (units q) b'.
(** The point [p'], counted from [b'], is [w] cells further than [p], counted from [b]. *)
Definition carried (p p' : point) : Prop := forall i n n' a a', (i < d)%nat -> isu q n (nth i p f0) -> isu q n' (nth i p' f0) -> isu q a (nth i b f0) -> isu q a' (nth i b' f0) ->
  (n' - a' = n - a + nth i w 0 * (2 * k))%Z.
Definition over (c p : point) : Prop := forall i n a, (i < d)%nat -> isu q n (nth i p f0) -> isu q a (nth i c f0) -> (a <= n)%Z.
Hypothesis Co : carried o o'.
Hypothesis Ce : carried e e'.
Hypothesis Ao : over b o.
Hypothesis Ae : over b e.
Hypothesis Ao' : over b' o'.
Hypothesis Ae' : over b' e'.
Notation u := (bp q).

Lemma coord : forall p i, Forall (units q) p -> (i < length p)%nat -> exists n, (Z.abs n <= 2 ^ 21)%Z /\ isu q n (nth i p f0).
Proof.
  intros p i H Hi. rewrite Forall_forall in H. destruct (H (nth i p f0) (nth_In _ _ Hi)) as [F (n & Hn & E)].
  exists n. split; [exact Hn|]. split; [exact F|exact E].
Qed.

Lemma shift_small : small (2 ^ 23) w.
Proof.
  unfold small. apply Forall_forall. intros z Hz. destruct (In_nth _ _ 0%Z Hz) as (i & Hi & E). rewrite Lw in Hi.
  destruct (coord b i Ub) as (a & Ba & Ha); [lia|]. destruct (coord b' i Ub') as (a' & Ba' & Ha'); [lia|].
  destruct (coord o i Uo) as (n & Bn & Hn); [lia|]. destruct (coord o' i Uo') as (n' & Bn' & Hn'); [lia|].
  pose proof (Co i n n' a a' Hi Hn Hn' Ha Ha') as C. rewrite E in C. apply (abs_factor k); [exact Hk|]. lia.
Qed.

Lemma nth_cfp : forall (p c : point) i, length p = d -> length c = d -> (i < d)%nat ->
  nth i (cell_from_point F32A p c r) 0%Z = cell_coord_from_point_coord F32A (nth i p f0) (nth i c f0) r.
Proof. intros p c i Lp Lc Hi. destruct (cell_from_point_coords p c r) as [_ H]; [lia|]. apply H. lia. Qed.
Lemma len_cfp : forall (p c : point), length p = d -> length c = d -> length (cell_from_point F32A p c r) = d.
Proof. intros p c Lp Lc. destruct (cell_from_point_coords p c r) as [H _]; [lia|]. lia. Qed.

Lemma cell_moved : forall p p', length p = d -> length p' = d -> Forall (units q) p -> Forall (units q) p' -> carried p p' -> over b p -> over b' p' ->
  cell_from_point F32A p' b' r = shifted w (cell_from_point F32A p b r).
Proof.
  intros p p' Lp Lp' Up Up' C A A'. apply nth_ext_Z.
  - rewrite shifted_length; rewrite !len_cfp by assumption; lia.
  - intros i Hi. rewrite len_cfp in Hi by assumption. rewrite nth_shifted; [|rewrite len_cfp by assumption; lia|rewrite len_cfp by assumption; lia].
    rewrite !nth_cfp by assumption.
    destruct (coord p i Up) as (m & Bm & Hm); [lia|]. destruct (coord p' i Up') as (m' & Bm' & Hm'); [lia|].
    destruct (coord b i Ub) as (n & Bn & Hn); [lia|]. destruct (coord b' i Ub') as (n' & Bn' & Hn'); [lia|].
    pose proof (C i m m' n n' Hi Hm Hm' Hn Hn') as C1. pose proof (A i m n Hi Hm Hn) as P. pose proof (A' i m' n' Hi Hm' Hn') as P'.
    rewrite (cell_value q Hq m n k (nth i p f0) (nth i b f0)) by (try assumption; lia). rewrite (cell_value q Hq m' n' k (nth i p' f0) (nth i b' f0)) by (try assumption; lia).
    assert (K : 2 <= IZR (2 * k)) by (apply IZR_le; lia).
    assert (X : 0 <= IZR (m - n)) by (apply IZR_le; lia). assert (X' : 0 <= IZR (m' - n')) by (apply IZR_le; lia).
    assert (E : IZR (m' - n') / IZR (2 * k) = IZR (m - n) / IZR (2 * k) + IZR (nth i w 0%Z)).
    { rewrite C1. rewrite plus_IZR, (mult_IZR (nth i w 0%Z)). field. lra. }
    rewrite E. apply nearest_shift.
    + apply Rle_mult_inv_pos; lra.
    + rewrite <- E. apply Rle_mult_inv_pos; lra.
Qed.

(** The centre of a cell near the map, from both corners. *)
Lemma centre_moved : forall c i m m' n n', (i < d)%nat -> isu q m (nth i o f0) -> isu q m' (nth i o' f0) -> isu q n (nth i b f0) -> isu q n' (nth i b' f0) ->
  (Z.abs m <= 2 ^ 21)%Z -> (Z.abs m' <= 2 ^ 21)%Z -> (Z.abs n <= 2 ^ 21)%Z -> (Z.abs n' <= 2 ^ 21)%Z -> (Z.abs (c * (2 * k) + n - m) <= 2 ^ 23)%Z ->
  isu q (c * (2 * k) + n) (point_coord_from_cell_coord F32A c (nth i b f0) r) /\
  isu q (c * (2 * k) + n - m + m') (point_coord_from_cell_coord F32A (c + nth i w 0%Z) (nth i b' f0) r).
Proof.
  intros c i m m' n n' Hi Hm Hm' Hn Hn' Bm Bm' Bn Bn' H. pose proof (Co i m m' n n' Hi Hm Hm' Hn Hn') as C. unfold point_coord_from_cell_coord. cbn [tadd tmul t_of_isize F32A].
  assert (C1 : (Z.abs (c * (2 * k)) <= 2 ^ 24)%Z) by lia. assert (C2 : (Z.abs ((c + nth i w 0) * (2 * k)) <= 2 ^ 24)%Z) by lia.
  split.
  - apply isu_add; try assumption; [|lia]. apply isu_scale; try assumption. now apply (abs_factor k).
  - replace (c * (2 * k) + n - m + m')%Z with ((c + nth i w 0) * (2 * k) + n')%Z by lia.
    apply isu_add; try assumption; [|lia]. apply isu_scale; try assumption. now apply (abs_factor k).
Qed.

(** From the sensor to the border of its cell. *)
Lemma border_moved : forall (s : f32) i, s = f1 \/ s = fm1 -> (i < d)%nat ->
  let c := nth i (cell_from_point F32A o b r) 0%Z in
  fsub (fadd (point_coord_from_cell_coord F32A (c + nth i w 0%Z) (nth i b' f0) r) (fmul (fmul s r) fhalf)) (nth i o' f0) =
  fsub (fadd (point_coord_from_cell_coord F32A c (nth i b f0) r) (fmul (fmul s r) fhalf)) (nth i o f0).
Proof.
  intros s i Hs Hi c.
  destruct (coord o i Uo) as (m & Bm & Hm); [lia|]. destruct (coord o' i Uo') as (m' & Bm' & Hm'); [lia|].
  destruct (coord b i Ub) as (n & Bn & Hn); [lia|]. destruct (coord b' i Ub') as (n' & Bn' & Hn'); [lia|].
  pose proof (Ao i m n Hi Hm Hn) as P.
  assert (N : (Z.abs (c * (2 * k) + n - m) <= k)%Z).
  { unfold c. rewrite nth_cfp by assumption. rewrite (cell_value q Hq m n k) by (try assumption; lia).
    pose proof (cell_near_units (m - n) k ltac:(lia)) as Q. lia. }
  destruct (centre_moved c i m m' n n' Hi Hm Hm' Hn Hn' Bm Bm' Bn Bn' ltac:(lia)) as [I1 I2].
  assert (H : exists h, (Z.abs h = k)%Z /\ isu q h (fmul (fmul s r) fhalf)).
  { destruct Hs as [-> | ->].
    - exists k. split; [lia|]. apply (isu_half q Hq k (fmul f1 r)); [|lia]. replace (2 * k)%Z with (1 * (2 * k))%Z by lia. apply isu_scale; try assumption; lia.
    - exists (- k)%Z. split; [lia|]. apply (isu_half q Hq (- k) (fmul fm1 r)); [|lia]. replace (2 * - k)%Z with (-1 * (2 * k))%Z by lia. apply isu_scale; try assumption; lia. }
  destruct H as (h & Eh & Ih). set (hf := fmul (fmul s r) fhalf) in *.
  set (x := point_coord_from_cell_coord F32A c (nth i b f0) r) in *. set (x' := point_coord_from_cell_coord F32A (c + nth i w 0%Z) (nth i b' f0) r) in *. clearbody x x' hf.
  assert (J1 := isu_add q Hq _ _ _ _ I1 Ih ltac:(lia)). assert (J2 := isu_add q Hq _ _ _ _ I2 Ih ltac:(lia)).
  assert (K1 := isu_sub q Hq _ _ _ _ J1 Hm ltac:(lia)). assert (K2 := isu_sub q Hq _ _ _ _ J2 Hm' ltac:(lia)).
  pose proof (u_pos q) as U.
  destruct (Z.eq_dec (c * (2 * k) + n + h - m) 0) as [Z0|Z0].
  - assert (ZERO : forall y v a p, isu q a y -> isu q (a + h) (fadd y hf) -> isu q p v -> (a + h - p = 0)%Z -> fsub (fadd y hf) v = f0).
    { intros y v a p [Fy Ey] [Fs Es] [Fv Ev] Z1. apply difference_zero; try assumption.
      - rewrite Es, Ev. f_equal. f_equal. lia.
      - destruct (Req_dec (B2R (fadd y hf)) 0) as [Q|Q]; [left|now right]. destruct Ih as [Fh Vh].
        assert (A0 : (a + h = 0)%Z). { apply eq_IZR. rewrite Es in Q. apply Rmult_integral in Q. destruct Q as [Q|Q]; [exact Q|lra]. }
        apply sum_sign; try assumption.
        + rewrite Vh. apply Rmult_integral_contrapositive_currified; [|lra]. apply not_0_IZR. lia.
        + rewrite Ey, Vh, <- Rmult_plus_distr_r, <- plus_IZR, A0. lra. }
    rewrite (ZERO x (nth i o f0) _ _ I1 J1 Hm ltac:(lia)). exact (ZERO x' (nth i o' f0) _ _ I2 J2 Hm' ltac:(lia)).
  - destruct K1 as [F1 E1], K2 as [F2 E2]. symmetry. apply nonzero_same; try assumption.
    + rewrite E1, E2. f_equal. f_equal. lia.
    + rewrite E1. apply Rmult_integral_contrapositive_currified; [|lra]. apply not_0_IZR. lia.
Qed.

Lemma sign_cases : forall (v : point) i, let s := nth i (signum F32A v) f0 in s = f0 \/ s = f1 \/ s = fm1.
Proof.
  intros v i. cbv zeta. unfold signum. destruct (Nat.lt_ge_cases i (length v)) as [L|L].
  - rewrite (nth_indep _ f0 (signum1 F32A f0)) by (rewrite map_length; exact L). rewrite map_nth. unfold signum1.
    destruct (teqb F32A _ _); [auto|]. destruct (tltb F32A _ _); auto.
  - rewrite nth_overflow by (rewrite map_length; exact L). auto.
Qed.

Definition vec (c : cell) (B p : point) : point := vsub F32A (point_from_cell F32A c B r) p.
Lemma nth_vsub : forall (p v : point) i, length p = d -> length v = d -> (i < d)%nat -> nth i (vsub F32A p v) f0 = fsub (nth i p f0) (nth i v f0).
Proof.
  intros p v i Lp Lv Hi. assert (Hp : (i < length p)%nat) by (rewrite Lp; exact Hi). exact (nth_map2 (tsub F32A) p v i f0 f0 f0 (eq_trans Lp (eq_sym Lv)) Hp).
Qed.
Lemma nth_vec : forall c B p i, length c = d -> length B = d -> length p = d -> (i < d)%nat ->
  nth i (vec c B p) f0 = fsub (point_coord_from_cell_coord F32A (nth i c 0%Z) (nth i B f0) r) (nth i p f0).
Proof.
  intros c B p i Lc LB Lp Hi. unfold vec, point_from_cell.
  set (l := map2 (fun (x : Z) (y : T F32A) => point_coord_from_cell_coord F32A x y r) c B).
  assert (Ll : length l = d) by exact (map2_len _ d c B Lc LB).
  etransitivity; [exact (nth_vsub l p i Ll Lp Hi)|].
  assert (E : nth i l f0 = point_coord_from_cell_coord F32A (nth i c 0%Z) (nth i B f0) r).
  { assert (Hc : (i < length c)%nat) by (rewrite Lc; exact Hi).
    exact (nth_map2 (fun (x : Z) (y : T F32A) => point_coord_from_cell_coord F32A x y r) c B i 0%Z f0 f0 (eq_trans Lc (eq_sym LB)) Hc). }
  exact (f_equal (fun z => fsub z (nth i p f0)) E).
Qed.
Lemma len_vec : forall c B p, length c = d -> length B = d -> length p = d -> length (vec c B p) = d.
Proof. intros c B p Lc LB Lp. exact (map2_len _ d _ _ (map2_len _ d c B Lc LB) Lp). Qed.

(** All coordinates of the centre of [c] are within [n] units of the origin's. *)
Definition close (n : Z) (c : cell) : Prop := forall i a m, (i < d)%nat -> isu q a (nth i b f0) -> isu q m (nth i o f0) ->
  (Z.abs (nth i c 0 * (2 * k) + a - m) <= n)%Z.

Lemma vec_units : forall c, length c = d -> close (2 ^ 23) c -> forall i, (i < d)%nat ->
  exists a, (Z.abs a <= 2 ^ 23)%Z /\ isu q a (nth i (vec c b o) f0) /\ isu q a (nth i (vec (shifted w c) b' o') f0).
Proof.
  intros c Lc Cl i Hi.
  destruct (coord o i Uo) as (m & Bm & Hm); [lia|]. destruct (coord o' i Uo') as (m' & Bm' & Hm'); [lia|].
  destruct (coord b i Ub) as (n & Bn & Hn); [lia|]. destruct (coord b' i Ub') as (n' & Bn' & Hn'); [lia|].
  specialize (Cl i n m Hi Hn Hm). destruct (centre_moved (nth i c 0%Z) i m m' n n' Hi Hm Hm' Hn Hn' Bm Bm' Bn Bn' Cl) as [C1 C2].
  exists (nth i c 0 * (2 * k) + n - m)%Z. split; [exact Cl|]. rewrite !nth_vec by (try assumption; rewrite shifted_length; lia).
  rewrite nth_shifted by lia. split.
  - apply isu_sub; [exact Hq|assumption|assumption|]. lia.
  - assert (Q := isu_sub q Hq _ _ _ _ C2 Hm' ltac:(lia)).
    replace (nth i c 0 * (2 * k) + n - m)%Z with (nth i c 0 * (2 * k) + n - m + m' - m')%Z by lia. exact Q.
Qed.

Lemma same_length : forall v v' : point, length v = d -> length v' = d ->
  (forall i, (i < d)%nat -> is_finite (nth i v f0) = true /\ is_finite (nth i v' f0) = true /\ B2R (nth i v f0) = B2R (nth i v' f0)) ->
  norm_squared F32A v' = norm_squared F32A v.
Proof.
  intros v v' L L' H. refine (f_equal (fun l => fadd f0 (match l with [] => f0 | x :: t => fold_left fadd t x end)) (squares_same v v' _ _)); [lia|]. rewrite L. exact H.
Qed.
Lemma length_moved : forall c, length c = d -> close (2 ^ 23) c -> norm_squared F32A (vec (shifted w c) b' o') = norm_squared F32A (vec c b o).
Proof.
  intros c Lc Cl. apply same_length.
  - now apply len_vec.
  - apply len_vec; try assumption. rewrite shifted_length; lia.
  - intros i Hi. destruct (vec_units c Lc Cl i Hi) as (a & _ & [F E] & [F' E']). split; [exact F|]. split; [exact F'|]. now rewrite E, E'.
Qed.

Lemma within_limit : forall m c, length c = d -> close (2 ^ 23) c -> finite m -> fltb f0 m = true -> (real m <= IZR (2 ^ 21) * u) ->
  fltb (fmul m m) (norm_squared F32A (vec c b o)) = false -> close (2 ^ 22) c.
Proof.
  intros m c Lc Cl Fm Pm Lm H i a n Hi Ha Hn. pose proof (len_vec c b o Lc Lb Lo) as LV.
  destruct (square_bounds (23 + q) (vec c b o)) as (FS & _ & S).
  - rewrite LV. exact Hd.
  - lia.
  - intros j Hj. rewrite LV in Hj. destruct (vec_units c Lc Cl j Hj) as (x & Bx & [F E] & _). split; [exact F|]. rewrite E, Rabs_mult, <- abs_IZR.
    rewrite (Rabs_pos_eq u) by apply bpow_ge_0. rewrite bpow_plus. apply Rmult_le_compat_r; [apply bpow_ge_0|]. change (bp 23) with (IZR (2 ^ 23)). now apply IZR_le.
  - specialize (S i ltac:(rewrite LV; exact Hi)). rewrite square_length_model in H by (rewrite LV; exact Hd).
    assert (PM : 0 < B2R m). { apply fltb_iff in Pm. destruct Pm as (_ & _ & Pm). rewrite (ext_finite m) in Pm by assumption. exact Pm. }
    assert (MM : Rabs (B2R m * B2R m) <= bp (42 + 2 * q)).
    { rewrite Rabs_pos_eq by nra. replace (42 + 2 * q)%Z with ((21 + q) + (21 + q))%Z by lia. rewrite bpow_plus, (bpow_plus radix2 21 q).
      change (bp 21) with (IZR (2 ^ 21)). unfold real in Lm. apply Rmult_le_compat; lra. }
    assert (RM := rnd_abs_le_bp _ (42 + 2 * q) ltac:(lia) MM). destruct (fmul_fin m m Fm Fm) as [FM EM].
    { eapply Rle_lt_trans; [exact RM|]. apply bpow_lt. lia. }
    apply fltb_false_iff in H; try (now apply is_finite_not_nan). rewrite !ext_finite in H by assumption.
    assert (UP : rnd (B2R (nth i (vec c b o) f0) * B2R (nth i (vec c b o) f0)) <= bp (42 + 2 * q)).
    { eapply Rle_trans; [exact S|]. eapply Rle_trans; [exact H|]. rewrite EM. eapply Rle_trans; [apply Rle_abs|exact RM]. }
    destruct (Z.le_gt_cases (Z.abs (nth i c 0 * (2 * k) + a - n)%Z) (2 ^ 22)) as [OK|BAD]; [exact OK|]. exfalso.
    destruct (vec_units c Lc Cl i Hi) as (x & Bx & [F E] & _).
    assert (x = nth i c 0 * (2 * k) + a - n)%Z as Ex.
    { destruct (coord o i Uo) as (m1 & Bm & Hm); [lia|]. destruct (coord o' i Uo') as (m2 & Bm2 & Hm2); [lia|].
      destruct (coord b i Ub) as (n1 & Bn & Hn1); [lia|]. destruct (coord b' i Ub') as (n' & Bn' & Hn'); [lia|].
      pose proof (isu_fun q _ _ _ Hm Hn). pose proof (isu_fun q _ _ _ Hn1 Ha). subst m1 n1. pose proof (Cl i a n Hi Ha Hn) as CC.
      destruct (centre_moved (nth i c 0%Z) i n m2 a n' Hi Hn Hm2 Ha Hn' Bm Bm2 Bn Bn' CC) as [C1 _].
      apply (isu_fun q x _ (nth i (vec c b o) f0)); [split; assumption|]. rewrite nth_vec by assumption. apply isu_sub; try assumption. lia. }
    rewrite <- Ex in BAD.
    assert (LOW : bp (44 + 2 * q) <= rnd (B2R (nth i (vec c b o) f0) * B2R (nth i (vec c b o) f0))).
    { apply rnd_ge_bp; [lia|]. rewrite E. replace (IZR x * u * (IZR x * u)) with ((IZR x * IZR x) * (u * u)) by ring.
      replace (44 + 2 * q)%Z with (44 + (q + q))%Z by lia. rewrite !bpow_plus. apply Rmult_le_compat_r; [pose proof (u_pos q); nra|].
      change (bp 44) with (IZR (2 ^ 44)). rewrite <- mult_IZR. apply IZR_le. change (2 ^ 44)%Z with (2 ^ 22 * 2 ^ 22)%Z. nia. }
    assert (LT : bp (42 + 2 * q) < bp (44 + 2 * q)) by (apply bpow_lt; lia). lra.
Qed.

(** The way from the sensor to the end. *)
Lemma way_moved : forall i, (i < d)%nat -> let x := nth i (vsub F32A e o) f0 in let x' := nth i (vsub F32A e' o') f0 in
  is_finite x = true /\ is_finite x' = true /\ B2R x = B2R x'.
Proof.
  intros i Hi x x'. unfold x, x'. rewrite !nth_vsub by assumption.
  destruct (coord o i Uo) as (m & Bm & Hm); [lia|]. destruct (coord o' i Uo') as (m' & Bm' & Hm'); [lia|].
  destruct (coord e i Ue) as (p & Bp & Hp); [lia|]. destruct (coord e' i Ue') as (p' & Bp' & Hp'); [lia|].
  destruct (coord b i Ub) as (n & Bn & Hn); [lia|]. destruct (coord b' i Ub') as (n' & Bn' & Hn'); [lia|].
  pose proof (Co i m m' n n' Hi Hm Hm' Hn Hn') as C1. pose proof (Ce i p p' n n' Hi Hp Hp' Hn Hn') as C2.
  destruct (isu_sub q Hq _ _ _ _ Hp Hm ltac:(lia)) as [F E]. destruct (isu_sub q Hq _ _ _ _ Hp' Hm' ltac:(lia)) as [F' E'].
  split; [exact F|]. split; [exact F'|]. rewrite E, E'. f_equal. f_equal. lia.
Qed.
Definition way : point := vdivs F32A (vsub F32A e o) (norm F32A (vsub F32A e o)).
Definition way' : point := vdivs F32A (vsub F32A e' o') (norm F32A (vsub F32A e' o')).
Lemma len_way : length way = d.
Proof. unfold way, vdivs. rewrite map_length. exact (map2_len _ d e o Le Lo). Qed.
Lemma len_way' : length way' = d.
Proof. unfold way', vdivs. rewrite map_length. exact (map2_len _ d e' o' Le' Lo'). Qed.
Lemma same_way : forall i, (i < d)%nat -> same_number (nth i way f0) (nth i way' f0).
Proof.
  intros i Hi. assert (L : length (vsub F32A e o) = d) by exact (map2_len _ d e o Le Lo). assert (L' : length (vsub F32A e' o') = d) by exact (map2_len _ d e' o' Le' Lo').
  unfold way, way', vdivs. assert (N : norm F32A (vsub F32A e' o') = norm F32A (vsub F32A e o)).
  { unfold norm. f_equal. apply same_length; try assumption. exact way_moved. }
  rewrite N. set (l := norm F32A (vsub F32A e o)). clearbody l.
  rewrite !(nth_indep _ f0 (tdiv F32A f0 l)) by (rewrite map_length; lia). rewrite !(map_nth (fun x => tdiv F32A x l)). apply same_quotient.
  destruct (way_moved i Hi) as (F & F' & E). now apply same_value.
Qed.
Lemma nth_signum : forall (v : point) i, (i < length v)%nat -> nth i (signum F32A v) f0 = signum1 F32A (nth i v f0).
Proof. intros v i Hi. unfold signum. rewrite (nth_indep _ f0 (signum1 F32A f0)) by (rewrite map_length; exact Hi). now rewrite map_nth. Qed.
Lemma same_steps : signum F32A way' = signum F32A way.
Proof.
  apply (nth_ext _ _ f0 f0).
  - exact (eq_trans (eq_trans (map_length _ way') len_way') (eq_sym (eq_trans (map_length _ way) len_way))).
  - intros i Hi. assert (H : (i < d)%nat). { pose proof (eq_trans (map_length (signum1 F32A) way') len_way') as L. exact (eq_ind _ (fun n => (i < n)%nat) Hi _ L). }
    assert (H1 : (i < length way)%nat) by (rewrite len_way; exact H). assert (H2 : (i < length way')%nat) by (rewrite len_way'; exact H).
    etransitivity; [exact (nth_signum way' i H2)|]. symmetry. etransitivity; [exact (nth_signum way i H1)|]. apply same_signum. now apply same_way.
Qed.

Lemma move_all : forall fuel m, (Z.of_nat fuel <= 2 ^ 61)%Z -> fltb f0 m = false \/ (finite m /\ real m <= IZR (2 ^ 21) * u) ->
  cast_ray F32A fuel o' e' b' r m = outcome_map (shifted_ray w) (cast_ray F32A fuel o e b r m).
Proof.
  intros fuel m Hf Hm. unfold cast_ray. change (T F32A) with f32. rewrite Lo, Lo'.
  replace (Nat.eqb d 2 || Nat.eqb d 3) with true by (destruct Hd as [H0|H0]; rewrite H0; reflexivity). cbn [oassert obind].
  rewrite (cell_moved o o'), (cell_moved e e') by assumption.
  pose proof (len_cfp o b Lo Lb) as Loc. pose proof (len_cfp e b Le Lb) as Lec.
  set (oc := cell_from_point F32A o b r) in *. set (ec := cell_from_point F32A e b r) in *.
  rewrite shifted_eqb by lia. destruct (cell_eqb oc ec); [reflexivity|]. cbv zeta.
  change (vdivs F32A (vsub F32A e o) (norm F32A (vsub F32A e o))) with way. change (vdivs F32A (vsub F32A e' o') (norm F32A (vsub F32A e' o'))) with way'.
  pose proof len_way as Ldir. pose proof len_way' as Ldir'. pose proof same_way as SW. pose proof same_steps as SS. pose proof (nth_signum way) as NS. rewrite Ldir in NS.
  set (dir := way) in *. set (dir' := way') in *. clearbody dir dir'. rewrite SS.
  assert (Lst : length (signum F32A dir) = d). { unfold signum. now rewrite map_length. }
  assert (TM : init_t_max F32A (signum F32A dir) b' o' dir' r (shifted w oc) = init_t_max F32A (signum F32A dir) b o dir r oc).
  { apply (nth_ext _ _ (tinf F32A) (tinf F32A)).
    - rewrite (length_init_t_max F32A d), (length_init_t_max F32A d); try assumption; try reflexivity. rewrite shifted_length; lia.
    - intros i Hi. rewrite (length_init_t_max F32A d) in Hi by (try assumption; rewrite shifted_length; lia).
      rewrite !(nth_init_t_max F32A d) by (try assumption; rewrite shifted_length; lia). rewrite nth_shifted by lia. change (tzero F32A) with f0.
      unfold axis_t_max. cbn [teqb tzero tinf tdiv tsub tadd tmul thalf F32A]. destruct (feqb (nth i (signum F32A dir) f0) f0) eqn:Es; [reflexivity|].
      assert (SC : nth i (signum F32A dir) f0 = f1 \/ nth i (signum F32A dir) f0 = fm1). { destruct (sign_cases dir i) as [Q|Q]; [|exact Q]. cbv zeta in Q. rewrite Q in Es. discriminate Es. }
      pose proof (border_moved _ i SC Hi) as BM. cbv zeta in BM. fold oc in BM. 
      destruct (zero_signum _ _ (SW i Hi)) as [ED|ED]; [|rewrite NS, ED in Es by exact Hi; discriminate Es]. 
      etransitivity; [exact (f_equal (fun z => fdiv z (nth i dir' f0)) BM)|]. exact (f_equal (fdiv _) (eq_sym ED)). }
  assert (TD : init_t_delta F32A (signum F32A dir) dir' r = init_t_delta F32A (signum F32A dir) dir r).
  { unfold init_t_delta. apply (nth_ext _ _ f0 f0).
    - rewrite (map2_len _ d), (map2_len _ d); auto.
    - intros i Hi. rewrite (map2_len _ d) in Hi by assumption. assert (Hs : (i < length (signum F32A dir))%nat) by (rewrite Lst; exact Hi).
      etransitivity; [exact (nth_map2 (fun s x => axis_t_delta F32A s x r) (signum F32A dir) dir' i f0 f0 f0 (eq_trans Lst (eq_sym Ldir')) Hs)|].
      symmetry. etransitivity; [exact (nth_map2 (fun s x => axis_t_delta F32A s x r) (signum F32A dir) dir i f0 f0 f0 (eq_trans Lst (eq_sym Ldir)) Hs)|].
      destruct (zero_signum _ _ (SW i Hi)) as [ED|ED]; [exact (f_equal (fun z => axis_t_delta F32A (nth i (signum F32A dir) f0) z r) ED)|].
      rewrite <- (NS i Hi) in ED. rewrite ED. reflexivity. }
  rewrite TM, TD. change [shifted w oc] with (map (shifted w) [oc]).
  apply (loop_shift F32A d w) with (P := fun c => fltb f0 m = true -> close (2 ^ 22) c) (W := (2 ^ 23)%Z) (n := (2 ^ 60)%Z);
    try assumption; try reflexivity; cbn [re_step re_end_cell]; try lia.
  - exact shift_small.
  - intro i. change (tzero F32A) with f0. destruct (sign_cases dir i) as [S|[S|S]]; cbv zeta in S; rewrite S; vm_compute; discriminate.
  - intros c i x Lc Pc Hi Hx. unfold too_far. cbn [re_max_len re_bmin re_resolution re_origin tltb tzero F32A].
    destruct (fltb f0 m) eqn:PM; [|split; [reflexivity|intros _ X; discriminate X]].
    destruct Hm as [Hm|[Fm Bm]]; [discriminate Hm|]. specialize (Pc eq_refl).
    assert (Lu : length (upd c i x) = d) by now rewrite upd_length.
    assert (Cl : close (2 ^ 23) (upd c i x)).
    { intros j a n Hj Ha Hn. specialize (Pc j a n Hj Ha Hn). destruct (Nat.eq_dec i j) as [->|N].
      - rewrite nth_upd_same by lia. nia.
      - rewrite nth_upd_other by exact N. lia. }
    fold (vec (shifted w (upd c i x)) b' o'). fold (vec (upd c i x) b o). rewrite length_moved by assumption. split; [reflexivity|].
    intros H _. cbn [tmul F32A] in H. apply (within_limit m); assumption.
  - apply (length_init_t_max F32A d); assumption.
  - unfold small. apply Forall_forall. intros z Hz. destruct (In_nth _ _ 0%Z Hz) as (i & Hi & E). rewrite Loc in Hi.
    unfold oc in E. rewrite nth_cfp in E by assumption. 
    destruct (coord o i Uo) as (a & Ba & Ha); [lia|]. destruct (coord b i Ub) as (n & Bn & Hn); [lia|].
    pose proof (Ao i a n Hi Ha Hn) as P. rewrite (cell_value q Hq a n k) in E by (try assumption; lia).
    pose proof (cell_near_units (a - n) k ltac:(lia)) as Q. rewrite E in Q. apply (abs_factor k); [exact Hk|]. lia.
  - intros _ i a n Hi Ha Hn. destruct (coord o i Uo) as (a' & Ba & Ha'); [lia|]. destruct (coord b i Ub) as (n' & Bn & Hn'); [lia|].
    pose proof (isu_fun q _ _ _ Ha Hn'). pose proof (isu_fun q _ _ _ Hn Ha'). subst a' n'.
    pose proof (Ao i n a Hi Hn Ha) as P. unfold oc. rewrite nth_cfp by assumption. rewrite (cell_value q Hq n a k) by (try assumption; lia).
    pose proof (cell_near_units (n - a) k ltac:(lia)) as Q. lia.
Qed.
End Move.
