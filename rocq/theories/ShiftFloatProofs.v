(** C88: moving the lower corner of the grid by whole cells, in f32 arithmetic. *)
From Coq Require Import ZArith List Bool Reals Lra Lia Psatz.
From Flocq Require Import Core BinarySingleNaN.
From Verif Require Import Base F32 FloatFacts RoundError Arith Geom RayCaster Spec SpecShift MathProofs ConverterProofs BoundsProofs RayProofs CastProofs RayRange ShiftProofs.
Open Scope R_scope.

Section Units.
Context (q : Z).
Hypothesis Hq : (-60 <= q <= 30)%Z.
Notation u := (bp q).

Definition isu (k : Z) (x : f32) : Prop := is_finite x = true /\ B2R x = IZR k * u.

Lemma u_pos : 0 < u. Proof. apply bpow_gt_0. Qed.
Lemma rnd_units : forall n, (Z.abs n <= 2 ^ 24)%Z -> rnd (IZR n * u) = IZR n * u.
Proof.
  intros n Hn. apply round_generic; auto with typeclass_instances. destruct (Z.le_ge_cases 0 n) as [P|P].
  - apply format_mult_bp; lia.
  - replace (IZR n * u) with (- (IZR (- n) * u)) by (rewrite opp_IZR; ring). apply generic_format_opp. apply format_mult_bp; lia.
Qed.
Lemma units_lt : forall n, (Z.abs n <= 2 ^ 24)%Z -> Rabs (IZR n * u) < bp 128.
Proof.
  intros n Hn. rewrite Rabs_mult, <- abs_IZR, (Rabs_pos_eq u) by apply bpow_ge_0.
  apply Rle_lt_trans with (bp (24 + q)); [|apply bpow_lt; lia]. rewrite bpow_plus. apply Rmult_le_compat_r. apply bpow_ge_0.
  change (bp 24) with (IZR (2 ^ 24)). apply IZR_le. exact Hn.
Qed.
Lemma isu_inj : forall a c x y, isu a x -> isu c y -> B2R x = B2R y -> a = c.
Proof. intros a c x y [_ E] [_ F] G. rewrite E, F in G. apply eq_IZR. apply Rmult_eq_reg_r in G; [exact G|]. pose proof u_pos. lra. Qed.
Lemma isu_fun : forall a c x, isu a x -> isu c x -> a = c.
Proof. intros a c x H K. now apply (isu_inj a c x x). Qed.

Lemma isu_add : forall a c x y, isu a x -> isu c y -> (Z.abs (a + c) <= 2 ^ 24)%Z -> isu (a + c) (fadd x y).
Proof.
  intros a c x y [Fx Ex] [Fy Ey] H. assert (E : rnd (B2R x + B2R y) = IZR (a + c) * u).
  { rewrite Ex, Ey, <- Rmult_plus_distr_r, <- plus_IZR. now apply rnd_units. }
  destruct (fadd_fin x y Fx Fy) as [F G]. { rewrite E. now apply units_lt. } split; [exact F|]. now rewrite G.
Qed.
Lemma isu_sub : forall a c x y, isu a x -> isu c y -> (Z.abs (a - c) <= 2 ^ 24)%Z -> isu (a - c) (fsub x y).
Proof.
  intros a c x y [Fx Ex] [Fy Ey] H. assert (E : rnd (B2R x - B2R y) = IZR (a - c) * u).
  { rewrite Ex, Ey, <- Rmult_minus_distr_r, <- minus_IZR. now apply rnd_units. }
  destruct (fsub_fin x y Fx Fy) as [F G]. { rewrite E. now apply units_lt. } split; [exact F|]. now rewrite G.
Qed.
Lemma isu_scale : forall c n r, (Z.abs c <= 2 ^ 24)%Z -> isu n r -> (Z.abs (c * n) <= 2 ^ 24)%Z -> isu (c * n) (fmul (f32_of_Z c) r).
Proof.
  intros c n r Hc [Fr Er] H. destruct (f32_of_Z_exact c Hc) as [Fc Ec].
  assert (E : rnd (B2R (f32_of_Z c) * B2R r) = IZR (c * n) * u).
  { rewrite Ec, Er, <- Rmult_assoc, <- mult_IZR. now apply rnd_units. }
  destruct (fmul_fin _ r Fc Fr) as [F G]. { rewrite E. now apply units_lt. } split; [exact F|]. now rewrite G.
Qed.
Lemma half_real : is_finite fhalf = true /\ B2R fhalf = / 2.
Proof. split; [vm_compute; reflexivity|exact fhalf_real]. Qed.
Lemma isu_half : forall k y, isu (2 * k) y -> (Z.abs k <= 2 ^ 24)%Z -> isu k (fmul y fhalf).
Proof.
  intros k y [Fy Ey] H. destruct half_real as [Fh Eh]. assert (E : rnd (B2R y * B2R fhalf) = IZR k * u).
  { rewrite Ey, Eh, mult_IZR. replace (2 * IZR k * u * / 2) with (IZR k * u) by field. now apply rnd_units. }
  destruct (fmul_fin y fhalf Fy Fh) as [F G]. { rewrite E. now apply units_lt. } split; [exact F|]. now rewrite G.
Qed.

(** The cell of a coordinate is computed without error. *)
Lemma nearest_rnd : forall X R, (0 <= X <= 2 ^ 22)%Z -> (1 <= R <= 2 ^ 21)%Z -> ZnearestA (rnd (IZR X / IZR R)) = ZnearestA (IZR X / IZR R).
Proof.
  intros X R HX HR. set (y := IZR X / IZR R).
  assert (PR : 1 <= IZR R <= 2097152) by (split; apply IZR_le; lia).
  assert (PX : 0 <= IZR X <= 4194304) by (split; apply IZR_le; lia).
  assert (Py : 0 <= y). { unfold y. apply Rle_mult_inv_pos; lra. }
  assert (Yb : y * IZR R = IZR X). { unfold y. field. lra. }
  assert (F : forall x, 0 <= x -> ZnearestA x = Zfloor (x + / 2)).
  { intros x Hx. unfold Znearest. case Rcompare_spec; intro C.
    - symmetry. apply Zfloor_imp. rewrite plus_IZR. pose proof (Zfloor_lb x). lra.
    - assert (Z0 : (0 <= Zfloor x)%Z) by (apply Zfloor_lub; exact Hx). rewrite (Zle_bool_true _ _ Z0).
      rewrite Zceil_floor_neq. 2:{ intro E. rewrite E in C. lra. }
      symmetry. apply Zfloor_imp. rewrite !plus_IZR. lra.
    - rewrite Zceil_floor_neq. 2:{ intro E. rewrite E in C. lra. }
      symmetry. apply Zfloor_imp. rewrite !plus_IZR. pose proof (Zfloor_ub x). lra. }
  assert (Pr : 0 <= rnd y) by now apply rnd_nonneg.
  rewrite !F by assumption. set (n := Zfloor (y + / 2)). assert (Nl := Zfloor_lb (y + / 2)). assert (Nu := Zfloor_ub (y + / 2)). fold n in Nl, Nu.
  assert (N0 : (0 <= n)%Z) by (unfold n; apply Zfloor_lub; simpl; lra).
  assert (N1 : (n <= 4194305)%Z). { apply le_IZR. nra. }
  assert (U : 2 * IZR X <= (2 * IZR n + 1) * IZR R - 1).
  { rewrite <- Yb. assert (L : (2 * X < (2 * n + 1) * R)%Z).
    { apply lt_IZR. rewrite !mult_IZR, plus_IZR, mult_IZR. rewrite <- Yb. nra. }
    rewrite Yb. replace ((2 * IZR n + 1) * IZR R - 1) with (IZR ((2 * n + 1) * R - 1)) by (rewrite minus_IZR, mult_IZR, plus_IZR, mult_IZR; ring).
    replace (2 * IZR X) with (IZR (2 * X)) by (rewrite mult_IZR; ring). apply IZR_le. lia. }
  assert (E : Rabs (rnd y - y) * IZR R <= / 4).
  { destruct (Z.eq_dec X 0) as [X0|X0].
    - assert (y = 0) by (unfold y; rewrite X0; unfold Rdiv; ring). rewrite H, rnd_0. unfold Rminus. rewrite Rplus_opp_r, Rabs_R0. lra.
    - assert (X1 : 1 <= IZR X) by (apply IZR_le; lia).
      assert (B : bp (-126) <= Rabs y).
      { rewrite Rabs_pos_eq by exact Py. apply Rle_trans with (bp (-21)); [apply bpow_le; lia|]. change (bp (-21)) with (/ 2097152).
        apply (Rmult_le_reg_r (IZR R)); [lra|]. rewrite Yb. nra. }
      pose proof (rnd_rel_normal y B) as E. rewrite (Rabs_pos_eq y Py) in E.
      apply Rle_trans with (u32 * y * IZR R); [apply Rmult_le_compat_r; [lra|exact E]|]. rewrite Rmult_assoc, Yb.
      rewrite <- u32_bp. change (bp (-24)) with (/ 16777216). lra. }
  apply Zfloor_imp. split.
  - destruct (Z.eq_dec n 0) as [n0|n0]. { rewrite n0. simpl. lra. }
    assert (G : IZR (2 * n - 1) * bp (-1) <= rnd y).
    { rewrite <- (round_generic radix2 fexp32 ZnearestE (IZR (2 * n - 1) * bp (-1))).
      - apply rnd_le. rewrite minus_IZR, mult_IZR. change (bp (-1)) with (/ 2). lra.
      - apply format_mult_bp; lia. }
    rewrite minus_IZR, mult_IZR in G. change (bp (-1)) with (/ 2) in G. lra.
  - rewrite plus_IZR. apply (Rmult_lt_reg_r (IZR R)); [lra|].
    assert (A : (rnd y - y) * IZR R <= / 4). { eapply Rle_trans; [apply Rmult_le_compat_r; [lra|apply Rle_abs]|exact E]. }
    nra.
Qed.

Lemma cell_value : forall a c k p b r, isu a p -> isu c b -> isu (2 * k) r -> (1 <= k <= 2 ^ 20)%Z -> (0 <= a - c <= 2 ^ 22)%Z ->
  cell_coord_from_point_coord F32A p b r = ZnearestA (IZR (a - c) / IZR (2 * k)).
Proof.
  intros a c k p b r Hp Hb [Fr Er] Hk Hac. assert (S := isu_sub a c p b Hp Hb ltac:(lia)). destruct S as [Fs Es].
  assert (K : 2 <= IZR (2 * k) <= 2097152) by (split; apply IZR_le; lia). pose proof u_pos as U.
  assert (Q : B2R (fsub p b) / B2R r = IZR (a - c) / IZR (2 * k)). { rewrite Es, Er. field. lra. }
  assert (X : 0 <= IZR (a - c) <= 4194304) by (split; apply IZR_le; lia).
  assert (B : Rabs (IZR (a - c) / IZR (2 * k)) <= bp 22).
  { change (bp 22) with 4194304. rewrite Rabs_pos_eq.
    - apply (Rmult_le_reg_r (IZR (2 * k))); [lra|]. unfold Rdiv. rewrite Rmult_assoc, Rinv_l, Rmult_1_r by lra. nra.
    - apply Rle_mult_inv_pos; lra. }
  destruct (fdiv_fin (fsub p b) r Fs Fr) as [F G].
  - rewrite Er. nra.
  - rewrite Q. apply rnd_abs_lt_128. eapply Rle_trans; [exact B|]. apply bpow_le. lia.
  - unfold cell_coord_from_point_coord. cbn [t_to_isize tround tdiv tsub F32A]. rewrite round_to_isize by now apply is_finite_not_nan.
    rewrite ext_finite by exact F. rewrite G, Q, nearest_rnd by lia. apply sat_id.
    assert (H : (0 <= ZnearestA (IZR (a - c) / IZR (2 * k)) <= 4194304)%Z).
    { assert (V : forall n, ZnearestA (IZR n) = n). { intro n. apply Znearest_imp. unfold Rminus. rewrite Rplus_opp_r, Rabs_R0. lra. }
      split.
      - pose proof (ZnearestA_le (IZR 0) (IZR (a - c) / IZR (2 * k))) as L. rewrite V in L. apply L. apply Rle_mult_inv_pos; lra.
      - pose proof (ZnearestA_le (IZR (a - c) / IZR (2 * k)) (IZR 4194304)) as L. rewrite V in L. apply L.
        change (bp 22) with 4194304 in B. eapply Rle_trans; [apply Rle_abs|exact B]. }
    unfold in_isize. apply andb_true_iff. unfold isize_min, isize_max. split; apply Z.leb_le; lia.
Qed.

Lemma cell_near_units : forall X k, (1 <= k)%Z -> (Z.abs (ZnearestA (IZR X / IZR (2 * k)) * (2 * k) - X) <= k)%Z.
Proof.
  intros X k Hk. set (y := IZR X / IZR (2 * k)). pose proof (Znearest_half (fun t => Z.leb 0 t) y) as H. fold ZnearestA in H.
  assert (K : 2 <= IZR (2 * k)) by (apply IZR_le; lia).
  apply le_IZR. rewrite abs_IZR, minus_IZR, mult_IZR. replace (IZR X) with (y * IZR (2 * k)) by (unfold y; field; lra).
  rewrite <- Rmult_minus_distr_r, Rabs_mult, (Rabs_pos_eq (IZR (2 * k))) by lra. rewrite Rabs_minus_sym.
  apply Rle_trans with (/ 2 * IZR (2 * k)). { apply Rmult_le_compat_r; [lra|exact H]. } rewrite mult_IZR. lra.
Qed.

Lemma square_ext : forall x x' : f32, is_finite x = true -> is_finite x' = true -> B2R x = B2R x' -> fmul x x = fmul x' x'.
Proof.
  intros x x' Fx Fx' E. destruct (Req_dec (B2R x) 0) as [Z0|Z0].
  - assert (A : forall z : f32, is_finite z = true -> B2R z = 0 -> fmul z z = f0).
    { intros [s| | |s m e B] Fz Ez; try discriminate. { destruct s; reflexivity. } exfalso. apply eq_0_F2R in Ez. destruct s; discriminate. }
    rewrite !A; try reflexivity; try assumption. congruence.
  - assert (x = x') as ->; [|reflexivity]. apply B2R_inj.
    + destruct x; try discriminate; try reflexivity. exfalso. apply Z0. reflexivity.
    + destruct x'; try discriminate; try reflexivity. exfalso. apply Z0. rewrite E. reflexivity.
    + exact E.
Qed.
End Units.

Lemma squares_same : forall v v' : point, length v' = length v ->
  (forall i, (i < length v)%nat -> is_finite (nth i v f0) = true /\ is_finite (nth i v' f0) = true /\ B2R (nth i v f0) = B2R (nth i v' f0)) ->
  map (fun x => fmul x x) v' = map (fun x => fmul x x) v.
Proof.
  induction v as [|x v IH]; intros [|x' v'] L H; cbn in L; try discriminate; [reflexivity|]. cbn [map]. f_equal.
  - destruct (H 0%nat) as (F & F' & E); [cbn; lia|]. cbn in F, F', E. symmetry. now apply square_ext.
  - apply IH; [lia|]. intros i Hi. apply (H (S i)). cbn. lia.
Qed.

Lemma abs_factor : forall k z N, (1 <= k <= 2 ^ 20)%Z -> (Z.abs (z * (2 * k)) <= N)%Z -> (Z.abs z <= N)%Z.
Proof. intros k z N Hk H. rewrite Z.abs_mul, (Z.abs_eq (2 * k)) in H by lia. pose proof (Z.abs_nonneg z). nia. Qed.
