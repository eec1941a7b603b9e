(** Proofs about src/math.rs. *)
From Coq Require Import ZArith List Bool Reals Lra Lia Psatz.
From Flocq Require Import Core BinarySingleNaN Plus_error.
From Verif Require Import Base F32 FloatFacts RoundError Arith Geom Spec.
Open Scope R_scope.

(** The value of a closed float, computed on its representation without proof. *)
Ltac to_SF x :=
  rewrite <- (SF2R_B2SF 24 128 x);
  let v := eval vm_compute in (B2SF x) in
  replace (B2SF x) with v by (vm_compute; reflexivity);
  unfold SF2R, F2R, cond_Zopp, Fnum, Fexp; unfold bpow; simpl; lra.

Lemma f1_fin : is_finite f1 = true. Proof. reflexivity. Qed.
Lemma f1_real : B2R f1 = 1.
Proof. destruct (f32_of_Z_exact 1) as [_ H]; [now vm_compute | exact H]. Qed.
Lemma fm1_real : B2R fm1 = -1.
Proof. destruct (f32_of_Z_exact (-1)) as [_ H]; [now vm_compute | exact H]. Qed.
Lemma fhalf_real : B2R fhalf = / 2.
Proof. to_SF fhalf. Qed.

Lemma signum_values : forall x : f32,
  (is_nan x = true -> f32_signum x = fm1) /\
  (finite x -> real x = 0 -> f32_signum x = f0) /\
  (finite x -> 0 < real x -> f32_signum x = f1) /\
  (finite x -> real x < 0 -> f32_signum x = fm1) /\
  (x = finf -> f32_signum x = f1) /\
  (x = fninf -> f32_signum x = fm1) /\
  real f0 = 0 /\ real f1 = 1 /\ real fm1 = -1.
Proof.
  intro x. unfold finite, real, f32_signum, signum1. cbn [teqb tltb tzero tone tmone F32A].
  rewrite f1_real, fm1_real.
  assert (Z : is_nan x = false -> feqb x f0 = Req_bool (ext x) 0 /\ fltb f0 x = Rlt_bool 0 (ext x)).
  { intro N. rewrite feqb_ext, fltb_ext by (try reflexivity; assumption). split; reflexivity. }
  repeat split; try intros F; try intros H; subst; try reflexivity.
  - rewrite feqb_nan_l, fltb_nan_r by assumption. reflexivity.
  - destruct Z as [-> ->]. now apply is_finite_not_nan. rewrite ext_finite by assumption.
    now rewrite H, Req_bool_true.
  - destruct Z as [-> ->]. now apply is_finite_not_nan. rewrite ext_finite by assumption.
    rewrite Req_bool_false by lra. now rewrite Rlt_bool_true.
  - destruct Z as [-> ->]. now apply is_finite_not_nan. rewrite ext_finite by assumption.
    rewrite Req_bool_false by lra. now rewrite Rlt_bool_false by lra.
Qed.

Lemma signum_vector : forall v : list f32,
  length (signum F32A v) = length v /\
  forall i, (i < length v)%nat -> nth i (signum F32A v) f0 = f32_signum (nth i v f0).
Proof.
  intro v. unfold signum. split. apply map_length.
  intros i Hi. rewrite nth_indep with (d' := f32_signum f0) by now rewrite map_length.
  change (map (signum1 F32A) v) with (map f32_signum v). apply map_nth.
Qed.

(** ** Exact log-odds *)
Notation lo := (fun p => logodds_from_probability RealA (xlift1 ln) p).
Notation pr := (fun l => probability_from_logodds RealA (xlift1 exp) l).

Lemma lo_fin : forall p, lo (Fin p) = Fin (ln (odds p)).
Proof. reflexivity. Qed.
Lemma pr_fin : forall l, pr (Fin l) = Fin (1 - 1 / (1 + exp l)).
Proof. reflexivity. Qed.

Lemma odds_pos : forall p, 0 < p < 1 -> 0 < odds p.
Proof. intros p H. unfold odds. apply Rdiv_lt_0_compat; lra. Qed.

Lemma pr_lo : forall p, 0 < p < 1 -> pr (lo (Fin p)) = Fin p.
Proof.
  intros p H. rewrite lo_fin, pr_fin. f_equal. rewrite exp_ln by now apply odds_pos.
  unfold odds. field. lra.
Qed.

Lemma pr_range : forall l, exists p, pr (Fin l) = Fin p /\ 0 < p < 1.
Proof.
  intro l. rewrite pr_fin. eexists. split. reflexivity. pose proof (exp_pos l).
  assert (0 < 1 / (1 + exp l) < 1).
  { split. apply Rdiv_lt_0_compat; lra. apply Rmult_lt_reg_r with (1 + exp l). lra.
    unfold Rdiv. rewrite Rmult_assoc, Rinv_l by lra. lra. }
  lra.
Qed.

Lemma lo_pr : forall l, lo (pr (Fin l)) = Fin l.
Proof.
  intro l. rewrite pr_fin, lo_fin. f_equal. pose proof (exp_pos l).
  replace (odds (1 - 1 / (1 + exp l))) with (exp l). apply ln_exp.
  unfold odds. field. lra.
Qed.

Lemma lo_increasing : forall p q, 0 < p -> p < q -> q < 1 ->
  exists a b, lo (Fin p) = Fin a /\ lo (Fin q) = Fin b /\ a < b.
Proof.
  intros p q Hp H Hq. rewrite !lo_fin. do 2 eexists. split; [reflexivity|]. split; [reflexivity|].
  apply ln_increasing. apply odds_pos. lra.
  unfold odds. apply Rmult_lt_reg_r with ((1 - p) * (1 - q)). nra.
  replace (p / (1 - p) * ((1 - p) * (1 - q))) with (p * (1 - q)) by (field; lra).
  replace (q / (1 - q) * ((1 - p) * (1 - q))) with (q * (1 - p)) by (field; lra). nra.
Qed.

Lemma pr_increasing : forall l m, l < m ->
  exists p q, pr (Fin l) = Fin p /\ pr (Fin m) = Fin q /\ p < q.
Proof.
  intros l m H. rewrite !pr_fin. do 2 eexists. split; [reflexivity|]. split; [reflexivity|].
  pose proof (exp_increasing _ _ H). pose proof (exp_pos l).
  assert (1 / (1 + exp m) < 1 / (1 + exp l)).
  { unfold Rdiv. rewrite !Rmult_1_l. apply Rinv_lt_contravar; nra. }
  lra.
Qed.

Lemma bayes_lo : forall p q, 0 < p < 1 -> 0 < q < 1 ->
  tadd RealA (lo (Fin p)) (lo (Fin q)) = lo (Fin (bayes p q)) /\ 0 < bayes p q < 1.
Proof.
  intros p q Hp Hq.
  assert (A : 0 < p * q) by (apply Rmult_lt_0_compat; lra).
  assert (B : 0 < (1 - p) * (1 - q)) by (apply Rmult_lt_0_compat; lra).
  split.
  - rewrite !lo_fin. simpl. f_equal. rewrite <- ln_mult by now apply odds_pos. f_equal.
    unfold odds, bayes. field.
    replace (p * q + (1 - p) * (1 - q) - p * q) with ((1 - p) * (1 - q)) by ring.
    repeat split; lra.
  - unfold bayes. split. apply Rdiv_lt_0_compat; lra.
    apply Rmult_lt_reg_r with (p * q + (1 - p) * (1 - q)). lra.
    unfold Rdiv. rewrite Rmult_assoc, Rinv_l by lra. lra.
Qed.

(** ** f32 log-odds *)
Notation flo := (logodds_from_probability F32A).

Lemma rnd_1_small : forall x, 0 <= x <= bp (-26) -> rnd (1 + x) = 1.
Proof.
  intros x [H1 H2].
  assert (R1 : rnd 1 = 1) by (apply (rnd_IZR 1); now vm_compute).
  set (c := fdiv f1 (f32_of_Z 67108864)).
  assert (Fc : is_finite c = true) by now vm_compute.
  assert (Ec : B2R c = bp (-26)). { unfold c. to_SF (fdiv f1 (f32_of_Z 67108864)). }
  assert (E : fadd f1 c = f1) by (apply B2SF_inj; now vm_compute).
  destruct (fadd_ext f1 c f1_fin Fc) as [_ H]. rewrite E, (ext_finite f1), f1_real, Ec in H by reflexivity.
  assert (B : Rabs (rnd (1 + bp (-26))) < bp 128).
  { apply rnd_abs_lt_128. rewrite Rabs_pos_eq by lra.
    apply Rle_trans with (bp 1). change (bp 1) with 2.
    assert (bp (-26) <= bp 0) by (apply bpow_le; lia). change (bp 0) with 1 in *. lra.
    apply bpow_le; lia. }
  rewrite clamp_lt_id in H by assumption.
  apply Rle_antisym.
  - rewrite H at 2. apply rnd_le. lra.
  - rewrite <- R1. apply rnd_le. lra.
Qed.

Lemma div_neg : forall a b : f32, is_finite a = true -> is_finite b = true ->
  B2R b <> 0 -> B2R a / B2R b <= - bp (-149) -> fltb (fdiv a b) f0 = true.
Proof.
  intros a b Fa Fb Hb H. destruct (fdiv_ext a b Fa Fb Hb) as [N E].
  apply fltb_iff. split; [assumption|]. split; [reflexivity|].
  rewrite E. change (ext f0) with 0.
  assert (R : rnd (B2R a / B2R b) <= - bp (-149)).
  { replace (- bp (-149)) with (rnd (- bp (-149))). now apply rnd_le.
    apply round_generic; auto with typeclass_instances. apply generic_format_opp.
    apply generic_format_bpow. unfold SpecFloat.fexp, SpecFloat.emin. lia. }
  pose proof (bpow_gt_0 radix2 (-149)). pose proof bp128_pos.
  apply clamp_le in R. rewrite (clamp_id (- bp (-149))) in R. lra.
  pose proof (bpow_le radix2 (-149) 128). assert (bp (-149) <= bp 128) by (apply bpow_le; lia). lra.
Qed.

Lemma float_neg_le : forall x : f32, is_finite x = true -> B2R x < 0 -> B2R x <= - bp (-149).
Proof.
  intros x F H.
  assert (G : generic_format radix2 fexp32 (- B2R x)) by (apply generic_format_opp, generic_format_B2R).
  assert (bp (-149) <= - B2R x).
  { destruct (on_grid_float x) as [m E]. rewrite E in H |- *. unfold F2R in *. simpl in *.
    pose proof (bpow_gt_0 radix2 (-149)).
    assert (m < 0)%Z. { apply lt_IZR. simpl. nra. }
    assert (IZR m <= -1) by (apply (IZR_le m (-1)); lia). nra. }
  lra.
Qed.

Lemma odds_neg : forall p : f32, fltb p f0 = true -> is_inf p = false ->
  fltb (fdiv p (fsub f1 p)) f0 = true.
Proof.
  intros p H I. apply fltb_iff in H. destruct H as (N & _ & H). change (ext f0) with 0 in H.
  assert (F : is_finite p = true) by (destruct p; try discriminate; reflexivity).
  rewrite ext_finite in H by assumption.
  set (x := B2R p) in *.
  assert (Hmax : Rabs x < bp 128) by apply B2R_lt_emax. rewrite Rabs_left in Hmax by assumption.
  destruct (fsub_ext f1 p f1_fin F) as [Nd Ed]. rewrite f1_real in Ed. fold x in Ed.
  destruct (Rle_or_lt (bp (-26)) (- x)) as [Hx|Hx].
  - (* at least 2^-26 in absolute value *)
    assert (Hd : is_finite (fsub f1 p) = true /\ B2R (fsub f1 p) = rnd (1 - x)).
    { assert (G : Rabs (rnd (1 - x)) < bp 128);
      [|destruct (fsub_fin f1 p f1_fin F) as [A1 A2]; rewrite ?f1_real in *; auto].
      destruct (Rle_or_lt (- x) (bp 126)) as [S|S].
      + apply rnd_abs_lt_128. rewrite Rabs_pos_eq by lra.
        change (bp 127) with (bp (126 + 1)). rewrite bpow_plus. change (bp 1) with 2.
        assert (bp 0 <= bp 126) by (apply bpow_le; lia). change (bp 0) with 1 in *. lra.
      + (* 1 - x rounds to at most the largest float *)
        set (mx := fsub (f32_of_Z (2 ^ 127)) (fneg (fmul (f32_of_Z (2 ^ 127)) (fsub f1 (fdiv f1 (f32_of_Z 8388608)))))).
        assert (Fm : is_finite mx = true) by now vm_compute.
        assert (Em : fadd mx f1 = mx) by (apply B2SF_inj; now vm_compute).
        assert (Vm : B2R mx = bp 128 - bp 104).
        { let t := eval unfold mx in mx in change mx with t; to_SF t. }
        destruct (fadd_ext mx f1 Fm f1_fin) as [_ Ea]. rewrite Em, ext_finite, f1_real in Ea by assumption.
        assert (Hp : - x <= B2R mx).
        { rewrite Vm. pose proof (abs_B2R_le_emax_minus_prec 24 128 _ p) as Q. fold x in Q.
          rewrite Rabs_left in Q by assumption. exact Q. }
        assert (rnd (1 - x) <= rnd (B2R mx + 1)) by (apply rnd_le; lra).
        assert (0 <= rnd (1 - x)) by (rewrite <- rnd_0; apply rnd_le; lra).
        rewrite Rabs_pos_eq by assumption.
        pose proof (B2R_lt_emax mx) as Lm.
        assert (rnd (B2R mx + 1) = B2R mx).
        { assert (Rabs (clamp (rnd (B2R mx + 1))) < bp 128) by (rewrite <- Ea; assumption).
          apply clamp_abs_lt in H2. rewrite clamp_lt_id in Ea by assumption. congruence. }
        apply Rabs_lt_inv in Lm. lra. }
    destruct Hd as [Fd Vd]. apply div_neg; try assumption.
    + rewrite Vd. assert (rnd 1 <= rnd (1 - x)) by (apply rnd_le; lra).
      rewrite (rnd_IZR 1) in H0 by now vm_compute. lra.
    + rewrite Vd. fold x. pose proof (rnd_grid_rel (1 - x)) as Er.
      assert (G : on_grid (1 - x)).
      { rewrite <- f1_real. apply on_grid_sub; apply on_grid_float. }
      specialize (Er G). rewrite (Rabs_pos_eq (1 - x)) in Er by lra.
      apply Rabs_le_inv in Er.
      assert (R1 : 1 <= rnd (1 - x)).
      { apply Rle_trans with (rnd 1). rewrite (rnd_IZR 1) by now vm_compute. lra. apply rnd_le. lra. }
      assert (Hb : bp (-149) <= bp (-26) / 4).
      { apply Rle_trans with (bp (-28)). apply bpow_le; lia.
        change (-26)%Z with (-28 + 2)%Z. rewrite bpow_plus. change (bp 2) with 4. lra. }
      assert (x / rnd (1 - x) <= - (bp (-26) / 4)).
      { assert (R2 : rnd (1 - x) <> 0) by (clear - R1; lra). apply Rmult_le_reg_r with (rnd (1 - x)). clear - R1; lra.
        unfold Rdiv at 1. rewrite Rmult_assoc, Rinv_l, Rmult_1_r by exact R2.
        assert (bp (-26) <= 1). { change 1 with (bp 0). apply bpow_le; lia. }
        pose proof (bpow_gt_0 radix2 (-26)).
        assert (Y1 : bp (-26) * rnd (1 - x) <= bp (-26) * (2 * (1 - x))).
        { apply Rmult_le_compat_l. lra. unfold u32 in Er. lra. }
        assert (Y2 : bp (-26) * - x <= 1 * - x) by (apply Rmult_le_compat_r; lra).
        lra. }
      lra.
  - assert (E1 : rnd (1 - x) = 1) by (apply rnd_1_small; lra).
    destruct (fsub_fin f1 p f1_fin F) as [Fd Vd].
    { rewrite f1_real. fold x. rewrite E1, Rabs_pos_eq by lra. change 1 with (bp 0). apply bpow_lt; lia. }
    rewrite f1_real in Vd. fold x in Vd. rewrite E1 in Vd.
    apply div_neg; try assumption. lra. rewrite Vd. fold x.
    pose proof (float_neg_le p F H). unfold Rdiv. rewrite Rinv_1, Rmult_1_r. assumption.
Qed.

Lemma odds_gt1 : forall p : f32, fltb f1 p = true -> is_inf p = false ->
  fltb (fdiv p (fsub f1 p)) f0 = true.
Proof.
  intros p H I. apply fltb_iff in H. destruct H as (_ & N & H).
  rewrite (ext_finite f1), f1_real in H by reflexivity.
  assert (F : is_finite p = true) by (destruct p; try discriminate; reflexivity).
  rewrite ext_finite in H by assumption.
  set (x := B2R p) in *.
  assert (Hmax : Rabs x < bp 128) by apply B2R_lt_emax. rewrite Rabs_pos_eq in Hmax by lra.
  assert (N0 : rnd (1 - x) < 0).
  { assert (rnd (1 - x) <= 0). { rewrite <- rnd_0. apply rnd_le. lra. }
    assert (rnd (1 - x) <> 0).
    { rewrite <- f1_real at 1. apply round_plus_neq_0; auto with typeclass_instances.
      apply generic_format_B2R. apply generic_format_opp, generic_format_B2R.
      rewrite f1_real. fold x. lra. }
    lra. }
  assert (LB : - x <= rnd (1 - x)).
  { rewrite <- (round_generic radix2 fexp32 ZnearestE (- x)).
    apply rnd_le. lra. apply generic_format_opp, generic_format_B2R. }
  destruct (fsub_fin f1 p f1_fin F) as [Fd Vd].
  { rewrite f1_real. fold x. apply Rabs_lt. lra. }
  rewrite f1_real in Vd. fold x in Vd.
  apply div_neg; try assumption. lra. rewrite Vd. fold x.
  apply Rmult_le_reg_r with (- rnd (1 - x)). lra.
  replace (x / rnd (1 - x) * - rnd (1 - x)) with (- x) by (field; lra).
  assert (bp (-149) <= 1). { change 1 with (bp 0). apply bpow_le; lia. }
  pose proof (bpow_gt_0 radix2 (-149)). nra.
Qed.

Lemma logodds_special : forall ln, ln_special ln ->
  (forall p, finite p -> real p = 0 -> flo ln p = fninf) /\
  flo ln f1 = finf /\
  feqb (flo ln fhalf) f0 = true /\
  (forall p, is_nan p = true \/ fltb p f0 = true \/ fltb f1 p = true -> is_nan (flo ln p) = true).
Proof.
  intros ln L. unfold logodds_from_probability. cbn [tdiv tsub tone F32A].
  split; [|split; [|split]].
  - intros p F H. apply (ln_zero _ L).
    + destruct p as [[|]| | |]; try discriminate; try reflexivity.
      simpl in H. exfalso. revert H. apply F2R_neq_0. destruct s; discriminate.
    + destruct p as [[|]| | |]; try discriminate; try reflexivity.
      simpl in H. exfalso. revert H. apply F2R_neq_0. destruct s; discriminate.
  - replace (fdiv f1 (fsub f1 f1)) with finf by (apply B2SF_inj; now vm_compute). apply (ln_infinity _ L).
  - replace (fdiv fhalf (fsub f1 fhalf)) with f1 by (apply B2SF_inj; now vm_compute). apply (ln_one _ L).
  - intros p H.
    destruct (is_inf p) eqn:I.
    { apply (ln_nan _ L). destruct p as [|[|]| |]; try discriminate; now vm_compute. }
    destruct H as [H|[H|H]].
    + apply (ln_nan _ L). destruct p; try discriminate. reflexivity.
    + apply (ln_negative _ L). now apply odds_neg.
    + apply (ln_negative _ L). now apply odds_gt1.
Qed.

(** The odds computed in f32 are monotone on [0, 1]. *)
Lemma one_minus : forall p : f32, fleb f0 p = true -> fleb p f1 = true ->
  is_finite p = true /\ is_finite (fsub f1 p) = true /\ B2R (fsub f1 p) = rnd (1 - B2R p) /\
  0 <= B2R p <= 1 /\ 0 <= rnd (1 - B2R p) <= 1 /\ (B2R p < 1 -> 0 < rnd (1 - B2R p)).
Proof.
  intros p H0 H1. apply fleb_iff in H0, H1. destruct H0 as (_ & N & H0), H1 as (_ & _ & H1).
  change (ext f0) with 0 in H0. rewrite (ext_finite f1), f1_real in H1 by reflexivity.
  assert (F : is_finite p = true).
  { apply ext_lt_finite. assumption. rewrite Rabs_pos_eq by assumption.
    apply Rle_lt_trans with 1. assumption. change 1 with (bp 0). apply bpow_lt; lia. }
  rewrite ext_finite in H0, H1 by assumption.
  assert (B : 0 <= rnd (1 - B2R p) <= 1).
  { split. rewrite <- rnd_0. apply rnd_le; lra.
    apply Rle_trans with (rnd 1). apply rnd_le; lra. rewrite (rnd_IZR 1) by now vm_compute. lra. }
  destruct (fsub_fin f1 p f1_fin F) as [Fd Vd].
  { rewrite f1_real, Rabs_pos_eq by lra. apply Rle_lt_trans with 1. lra.
    change 1 with (bp 0). apply bpow_lt; lia. }
  rewrite f1_real in Vd. repeat split; try assumption; try lra.
  intro L. assert (rnd (1 - B2R p) <> 0); [|lra].
  rewrite <- f1_real. apply round_plus_neq_0; auto with typeclass_instances.
  apply generic_format_B2R. apply generic_format_opp, generic_format_B2R.
  rewrite f1_real. lra.
Qed.

Lemma div_one_zero : forall p : f32, B2R p = 1 -> is_finite p = true ->
  fdiv p (fsub f1 p) = finf.
Proof.
  intros p E F.
  assert (p = f1).
  { apply B2R_Bsign_inj; try assumption; try reflexivity. rewrite E, f1_real. reflexivity.
    apply ext_pos_sign. now apply is_finite_not_nan. rewrite ext_finite by assumption. lra. }
  subst p. apply B2SF_inj. now vm_compute.
Qed.

Lemma odds_mono : forall p q : f32, fleb f0 p = true -> fleb p q = true -> fleb q f1 = true ->
  fleb f0 (fdiv p (fsub f1 p)) = true /\
  fleb (fdiv p (fsub f1 p)) (fdiv q (fsub f1 q)) = true.
Proof.
  intros p q H0 Hpq H1.
  assert (Hp1 : fleb p f1 = true).
  { apply fleb_iff in Hpq, H1. apply fleb_iff. intuition. lra. }
  assert (Hq0 : fleb f0 q = true).
  { apply fleb_iff in Hpq, H0. apply fleb_iff. intuition. lra. }
  destruct (one_minus p H0 Hp1) as (Fp & Fdp & Vdp & Rp & Bp & Pp).
  destruct (one_minus q Hq0 H1) as (Fq & Fdq & Vdq & Rq & Bq & Pq).
  assert (Rpq : B2R p <= B2R q).
  { apply fleb_iff in Hpq. destruct Hpq as (_ & _ & Hpq). now rewrite !ext_finite in Hpq by assumption. }
  assert (Z : forall a : f32, is_finite a = true -> is_finite (fsub f1 a) = true ->
     B2R (fsub f1 a) = rnd (1 - B2R a) -> 0 <= B2R a -> 0 < rnd (1 - B2R a) ->
     is_nan (fdiv a (fsub f1 a)) = false /\
     ext (fdiv a (fsub f1 a)) = clamp (rnd (B2R a / rnd (1 - B2R a))) /\ 0 <= ext (fdiv a (fsub f1 a))).
  { intros a Fa Fd Vd R0 P. destruct (fdiv_ext a (fsub f1 a) Fa Fd) as [N E]. rewrite Vd; lra.
    rewrite Vd in E. split; [assumption|]. split; [assumption|]. rewrite E.
    rewrite <- (clamp_id 0). apply clamp_le. rewrite <- rnd_0 at 1. apply rnd_le.
    apply Rmult_le_pos. assumption. apply Rlt_le, Rinv_0_lt_compat. assumption.
    pose proof bp128_pos. lra. }
  destruct (Req_dec (B2R q) 1) as [Eq|Nq].
  - rewrite (div_one_zero q Eq Fq).
    destruct (Req_dec (B2R p) 1) as [Ep|Np].
    + rewrite (div_one_zero p Ep Fp). split; now vm_compute.
    + destruct (Z p Fp Fdp Vdp ltac:(lra) (Pp ltac:(lra))) as (N & E & P).
      split; apply fleb_iff; (split; [|split]); try reflexivity; try assumption.
      apply ext_bounds.
  - destruct (Z p Fp Fdp Vdp ltac:(lra) (Pp ltac:(lra))) as (N & E & P).
    destruct (Z q Fq Fdq Vdq ltac:(lra) (Pq ltac:(lra))) as (N' & E' & P').
    split; apply fleb_iff; (split; [|split]); try reflexivity; try assumption.
    rewrite E, E'. apply clamp_le, rnd_le.
    assert (Pp' := Pp ltac:(lra)). assert (Pq' := Pq ltac:(lra)).
    assert (rnd (1 - B2R q) <= rnd (1 - B2R p)) by (apply rnd_le; lra).
    apply Rmult_le_compat; try lra. apply Rlt_le, Rinv_0_lt_compat; assumption.
    apply Rinv_le_contravar; assumption.
Qed.

Lemma logodds_monotone : forall ln, ln_monotone ln -> forall p q,
  fleb f0 p = true -> fleb p q = true -> fleb q f1 = true ->
  fleb (flo ln p) (flo ln q) = true.
Proof.
  intros ln L p q H0 Hpq H1. destruct (odds_mono p q H0 Hpq H1) as [A B].
  unfold logodds_from_probability. cbn [tdiv tsub tone F32A]. now apply L.
Qed.

(** A (very coarse) logarithm meeting both assumptions. *)
Definition coarse_ln (x : f32) : f32 :=
  if is_nan x then fnan
  else if fltb x f0 then fnan
  else if feqb x f0 then fninf
  else if fltb x f1 then fm1
  else if feqb x finf then finf
  else if fltb f1 x then f1
  else f0.

Lemma coarse_ln_special : ln_special coarse_ln.
Proof.
  constructor.
  - intros x F H. unfold coarse_ln. rewrite is_finite_not_nan by assumption.
    rewrite fltb_ext, feqb_ext by (try reflexivity; now apply is_finite_not_nan).
    change (ext f0) with 0. rewrite ext_finite by assumption. unfold real in H. rewrite H.
    rewrite Rlt_bool_false by lra. now rewrite Req_bool_true.
  - vm_compute. reflexivity.
  - apply B2SF_inj. now vm_compute.
  - intros x H. unfold coarse_ln. now rewrite H.
  - intros x H. unfold coarse_ln. rewrite H. now destruct (is_nan x).
Qed.

Lemma coarse_ln_monotone : ln_monotone coarse_ln.
Proof.
  intros x y Hx Hxy. unfold coarse_ln.
  apply fleb_iff in Hx, Hxy. destruct Hx as (_ & Nx & Hx), Hxy as (_ & Ny & Hxy).
  rewrite Nx, Ny. change (ext f0) with 0 in Hx.
  rewrite !fltb_ext, !feqb_ext by (try reflexivity; assumption).
  change (ext f0) with 0. change (ext finf) with (bp 128). rewrite (ext_finite f1), f1_real by reflexivity.
  rewrite !Rlt_bool_false with (y := 0) by lra.
  assert (Hl : forallb (fun a => forallb (fleb a) [fninf; fm1; f0; f1; finf]) [fninf] &&
               forallb (fleb fm1) [fm1; f0; f1; finf] && forallb (fleb f0) [f0; f1; finf] && forallb (fleb f1) [f1; finf] && fleb finf finf = true)
    by (vm_compute; reflexivity).
  cbn [forallb] in Hl. rewrite !andb_true_iff in Hl.
  pose proof (ext_bounds y).
  case (Req_bool_spec (ext x) 0); intro A; case (Req_bool_spec (ext y) 0); intro B;
  case (Rlt_bool_spec (ext y) 1); intro D;
  case (Req_bool_spec (ext y) (bp 128)); intro E;
  case (Rlt_bool_spec (ext x) 1); intro C;
  case (Req_bool_spec (ext x) (bp 128)); intro G;
  case (Rlt_bool_spec 1 (ext x)); intro C';
  case (Rlt_bool_spec 1 (ext y)); intro D';
  first [exfalso; lra | tauto].
Qed.
Lemma coarse_ln_positive : forall x, fltb f1 x = true -> fltb f0 (coarse_ln x) = true.
Proof.
  intros x H. unfold coarse_ln. rewrite H. apply fltb_iff in H. destruct H as (_ & N & H). rewrite (ext_finite f1), f1_real in H by reflexivity.
  assert (A : fltb x f0 = false) by (rewrite fltb_ext by (try reflexivity; assumption); apply Rlt_bool_false; change (ext f0) with 0; lra).
  assert (B : feqb x f0 = false) by (rewrite feqb_ext by (try reflexivity; assumption); apply Req_bool_false; change (ext f0) with 0; lra).
  assert (C : fltb x f1 = false) by (rewrite fltb_ext by (try reflexivity; assumption); apply Rlt_bool_false; rewrite (ext_finite f1), f1_real by reflexivity; lra).
  rewrite N, A, B, C. destruct (feqb x finf); vm_compute; reflexivity.
Qed.
