(** The accuracy of log-odds and probabilities in f32. *)
From Coq Require Import ZArith List Bool Reals Lra Lia Psatz.
From Flocq Require Import Core BinarySingleNaN.
From Verif Require Import Base F32 FloatFacts RoundError Arith Geom Spec SpecOdds MathProofs.
Open Scope R_scope.

Lemma bp22 : bp (-22) = 4 * u32.
Proof. change (bp (-22)) with (/ 4194304). unfold u32. lra. Qed.

Lemma ln_near1 : forall x a, 0 < x -> 0 <= a < 1 -> 1 - a <= x -> x <= / (1 - a) -> Rabs (ln x) <= / (1 - a) - 1.
Proof.
  intros x a Hx Ha H1 H2. assert (L : forall y, 0 < y -> ln y <= y - 1).
  { intros y Hy. pose proof (exp_ineq1_le (ln y)) as E. rewrite exp_ln in E by assumption. lra. }
  apply Rabs_le. pose proof (L x Hx) as Q1. pose proof (L (/ x) (Rinv_0_lt_compat _ Hx)) as Q2. rewrite ln_Rinv in Q2 by assumption.
  assert (/ x <= / (1 - a)) by (apply Rinv_le; lra). lra.
Qed.

(** The odds of a probability. *)
Lemma odds_fin : forall p : f32, finite p -> bp (-100) <= real p < 1 ->
  finite (fdiv p (fsub f1 p)) /\ 0 < real (fdiv p (fsub f1 p)) /\
  Rabs (ln (real (fdiv p (fsub f1 p))) - exact_logodds (real p)) <= (2 + / 1000) * u32.
Proof.
  intros p Fp [H0 H1]. unfold finite, real, exact_logodds in *. pose proof (bpow_gt_0 radix2 (-100)) as P100.
  assert (Pp : 0 < B2R p) by lra.
  assert (U : u32 = / 16777216) by reflexivity.
  pose proof (rnd_sub_rel f1 p) as E1. rewrite f1_real in E1.
  assert (P1 : 0 < 1 - B2R p) by lra.
  rewrite (Rabs_pos_eq (1 - B2R p)) in E1 by lra. apply Rabs_le_inv in E1.
  destruct (fsub_fin f1 p f1_fin Fp) as [Fq Eq].
  { rewrite f1_real. apply rnd_abs_lt_128. rewrite Rabs_pos_eq by lra. apply Rle_trans with (bp 0); [change (bp 0) with 1; lra|apply bpow_le; lia]. }
  rewrite f1_real in Eq. set (q := fsub f1 p) in *. rewrite <- Eq in E1. clearbody q.
  assert (Pq : 0 < B2R q) by (rewrite U in E1; lra).
  assert (Q1 : B2R q <= 2) by (rewrite U in E1; lra).
  assert (QL : bp (-26) <= B2R q).
  { change (bp (-26)) with (/ 67108864).
    assert (bp (-24) <= 1 - B2R p).
    { assert (G : generic_format radix2 fexp32 (B2R p)) by apply generic_format_B2R.
      assert (L : B2R p <= pred radix2 fexp32 1).
      { apply pred_ge_gt; [apply fexp_correct; reflexivity|exact G| |exact H1]. change 1 with (bp 0). apply generic_format_bpow. unfold SpecFloat.fexp, SpecFloat.emin. lia. }
      change 1 with (bp 0) in L. rewrite pred_bpow in L by (apply fexp_correct; reflexivity).
      change (fexp32 0) with (-24)%Z in L. change (bp 0) with 1 in L. lra. }
    change (bp (-24)) with (/ 16777216) in H. rewrite U in E1. lra. }
  set (o := B2R p / B2R q).
  assert (Po : 0 < o) by (apply Rdiv_lt_0_compat; assumption).
  assert (O1 : bp (-126) <= o).
  { apply Rle_trans with (bp (-100) / 2). change (/ 2) with (bp (-1)). unfold Rdiv. change (/ 2) with (bp (-1)). rewrite <- bpow_plus. apply bpow_le; lia.
    unfold o, Rdiv. apply Rmult_le_compat; [lra|lra|exact H0|apply Rinv_le; lra]. }
  assert (O2 : o <= bp 26).
  { unfold o, Rdiv. replace (bp 26) with (1 * / bp (-26)) by (change (bp 26) with (67108864); change (bp (-26)) with (/ 67108864); lra).
    apply Rmult_le_compat; [lra|apply Rlt_le, Rinv_0_lt_compat; lra|lra|]. apply Rinv_le; [apply bpow_gt_0|exact QL]. }
  destruct (fdiv_fin p q Fp Fq) as [Fx Ex]; [lra| |].
  { apply rnd_abs_lt_128. fold o. rewrite Rabs_pos_eq by lra. apply Rle_trans with (1 := O2). apply bpow_le; lia. }
  fold o in Ex. pose proof (rnd_rel_normal o) as E2. rewrite (Rabs_pos_eq o) in E2 by lra. specialize (E2 O1). rewrite <- Ex in E2. apply Rabs_le_inv in E2.
  set (x := B2R (fdiv p q)) in *. split; [exact Fx|].
  assert (Px : 0 < x) by (rewrite U in E2; lra). split; [exact Px|].
  set (c := B2R p / (1 - B2R p)). assert (Pc : 0 < c) by (apply Rdiv_lt_0_compat; lra).
  assert (V : x / c = (x / o) * ((1 - B2R p) / B2R q)) by (unfold c, o; field; lra).
  replace (ln x - ln c) with (ln (x / c)) by (unfold Rdiv; rewrite ln_mult, ln_Rinv; [reflexivity|exact Pc|exact Px|apply Rinv_0_lt_compat, Pc]).
  assert (A1 : 1 - u32 <= x / o <= 1 + u32).
  { split; [apply Rmult_le_reg_r with o|apply Rmult_le_reg_r with o]; try exact Po; unfold Rdiv; rewrite Rmult_assoc, Rinv_l by lra; lra. }
  assert (A2 : / (1 + u32) <= (1 - B2R p) / B2R q <= / (1 - u32)).
  { split; apply Rmult_le_reg_r with (B2R q); try exact Pq; unfold Rdiv; rewrite Rmult_assoc, Rinv_l by lra.
    - apply Rmult_le_reg_l with (1 + u32); [rewrite U; lra|]. replace ((1 + u32) * (/ (1 + u32) * B2R q)) with (B2R q) by (field; rewrite U; lra). lra.
    - apply Rmult_le_reg_l with (1 - u32); [rewrite U; lra|]. replace ((1 - u32) * (/ (1 - u32) * B2R q)) with (B2R q) by (field; rewrite U; lra). lra. }
  eapply Rle_trans; [apply (ln_near1 (x / c) (2 * u32))|].
  - apply Rdiv_lt_0_compat; assumption.
  - rewrite U; lra.
  - rewrite V. apply Rle_trans with ((1 - u32) * / (1 + u32)); [rewrite U; lra|]. apply Rmult_le_compat; try lra; rewrite U in *; try lra.
  - rewrite V. apply Rle_trans with ((1 + u32) * / (1 - u32)); [|rewrite U; lra]. apply Rmult_le_compat; rewrite ?U in *; try lra.
  - rewrite U; lra.
Qed.

Lemma logodds_accurate : forall f p, ln_accurate f -> finite p -> bp (-100) <= real p < 1 ->
  let l := logodds_from_probability F32A f p in
  finite l /\ Rabs (real l - exact_logodds (real p)) <= bp (-22) * (1 + Rabs (exact_logodds (real p))).
Proof.
  intros f p A Fp H. cbv zeta. unfold logodds_from_probability. cbn [tdiv tsub tone F32A].
  destruct (odds_fin p Fp H) as (Fx & Px & E). set (x := fdiv p (fsub f1 p)) in *. clearbody x.
  destruct (A x Fx Px) as [F1 E1]. split; [exact F1|]. set (L := exact_logodds (real p)) in *. set (l := real (f x)) in *.
  rewrite bp22 in *. assert (U : u32 = / 16777216) by reflexivity.
  assert (B : Rabs (ln (real x)) <= Rabs L + (2 + / 1000) * u32).
  { replace (ln (real x)) with (L + (ln (real x) - L)) by ring. eapply Rle_trans; [apply Rabs_triang|]. lra. }
  replace (l - L) with ((l - ln (real x)) + (ln (real x) - L)) by ring. eapply Rle_trans; [apply Rabs_triang|].
  pose proof (Rabs_pos L). rewrite U in *. nra.
Qed.

Lemma exp_64 : forall l, Rabs l <= 64 -> 0 < exp l <= bp 102.
Proof.
  intros l H. split; [apply exp_pos|]. apply Rabs_le_inv in H.
  apply Rle_trans with (exp 64). { destruct (Rle_lt_or_eq_dec l 64 (proj2 H)) as [K| ->]; [apply Rlt_le, exp_increasing, K|lra]. }
  replace 64 with (INR 64 * 1) by (cbn [INR]; lra). 
  assert (P : forall n, exp (INR n * 1) = exp 1 ^ n).
  { induction n as [|n IH]; [rewrite Rmult_0_l; apply exp_0|]. rewrite S_INR, Rmult_plus_distr_r, exp_plus, IH, Rmult_1_l. cbn [pow]. ring. }
  rewrite P. apply Rle_trans with (3 ^ 64). apply pow_incr. split; [apply Rlt_le, exp_pos|apply exp_le_3].
  rewrite <- (Rpower_pow 64 3) by lra. rewrite Rpower_pow by lra. change (bp 102) with (IZR (2 ^ 102)). rewrite pow_IZR. apply IZR_le. vm_compute. discriminate.
Qed.

Lemma probability_accurate : forall f l, exp_accurate f -> finite l -> Rabs (real l) <= 64 ->
  let p := probability_from_logodds F32A f l in
  finite p /\ 0 <= real p <= 1 /\ Rabs (real p - exact_probability (real l)) <= (3 + / 10) * u32.
Proof.
  intros f l A Fl Hl. cbv zeta. unfold probability_from_logodds. cbn [tdiv tsub tadd tone F32A].
  destruct (A l Fl Hl) as [Fe Ee]. unfold exact_probability, finite, real in *. set (e := f l) in *. clearbody e. destruct (exp_64 _ Hl) as [PE EB].
  set (E := exp (B2R l)) in *. clearbody E. rewrite bp22 in Ee. apply Rabs_le_inv in Ee.
  assert (U : u32 = / 16777216) by reflexivity. assert (Pe : 0 < B2R e) by (rewrite U in Ee; lra).
  assert (R1 : rnd 1 = 1) by (apply (rnd_IZR 1); now vm_compute).
  assert (B102 : 2 <= bp 102) by (change 2 with (bp 1); apply bpow_le; lia).
  assert (B104 : 4 * bp 102 = bp 104) by (change 104%Z with (2 + 102)%Z; rewrite bpow_plus; reflexivity).
  pose proof (rnd_add_rel f1 e) as Es. rewrite f1_real, (Rabs_pos_eq (1 + B2R e)) in Es by lra.
  destruct (fadd_fin f1 e f1_fin Fe) as [Fs Rs].
  { rewrite f1_real. apply rnd_abs_lt_128. rewrite Rabs_pos_eq by lra. apply Rle_trans with (bp 104); [rewrite U in Ee; lra|apply bpow_le; lia]. }
  rewrite f1_real in Rs. rewrite <- Rs in Es. assert (S1 : 1 <= B2R (fadd f1 e)) by (rewrite Rs, <- R1 at 1; apply rnd_le; lra).
  set (s := fadd f1 e) in *. clearbody s. apply Rabs_le_inv in Es.
  assert (SB : B2R s <= bp 104) by (rewrite U in *; lra).
  set (i := 1 / B2R s). assert (Hi : bp (-104) <= i <= 1).
  { unfold i, Rdiv. rewrite Rmult_1_l. split; [|rewrite <- Rinv_1; apply Rinv_le; lra]. replace (bp (-104)) with (/ bp 104) by (symmetry; apply (bpow_opp radix2 104)). apply Rinv_le; lra. }
  pose proof (rnd_rel_normal i) as Ed. pose proof (bpow_gt_0 radix2 (-104)). rewrite (Rabs_pos_eq i) in Ed by lra.
  assert (N : bp (-126) <= i) by (apply Rle_trans with (bp (-104)); [apply bpow_le; lia|lra]). specialize (Ed N).
  destruct (fdiv_fin f1 s f1_fin Fs) as [Fd Rd]; [lra| |].
  { rewrite f1_real. fold i. apply rnd_abs_lt_128. rewrite Rabs_pos_eq by lra. apply Rle_trans with (bp 0); [change (bp 0) with 1; lra|apply bpow_le; lia]. }
  rewrite f1_real in Rd. fold i in Rd. rewrite <- Rd in Ed.
  assert (D01 : 0 <= B2R (fdiv f1 s) <= 1). { rewrite Rd. split; [rewrite <- rnd_0|rewrite <- R1]; apply rnd_le; lra. }
  set (d := fdiv f1 s) in *. clearbody d. apply Rabs_le_inv in Ed.
  pose proof (rnd_sub_rel f1 d) as Er. rewrite f1_real, (Rabs_pos_eq (1 - B2R d)) in Er by lra.
  destruct (fsub_fin f1 d f1_fin Fd) as [Fr Rr].
  { rewrite f1_real. apply rnd_abs_lt_128. rewrite Rabs_pos_eq by lra. apply Rle_trans with (bp 0); [change (bp 0) with 1; lra|apply bpow_le; lia]. }
  rewrite f1_real in Rr. rewrite <- Rr in Er. apply Rabs_le_inv in Er. split; [exact Fr|]. split.
  { rewrite Rr. split; [rewrite <- rnd_0|rewrite <- R1]; apply rnd_le; lra. }
  set (r := B2R (fsub f1 d)) in *. clearbody r.
  (* the exact value is 1 - D *)
  set (D := / (1 + E)). assert (HD : 0 < D) by (apply Rinv_0_lt_compat; lra).
  assert (DE : D * E = 1 - D) by (unfold D; field; lra).
  replace (E / (1 + E)) with (1 - D) by (rewrite <- DE; unfold D; field; lra).
  assert (D1 : D < 1) by (pose proof (Rmult_lt_0_compat _ _ HD PE); lra).
  assert (Hs : Rabs (B2R s * D - 1) <= 4 * u32 * (1 - D) + (1 + / 100) * u32).
  { replace (B2R s * D - 1) with (D * (B2R s - (1 + E))) by (unfold D; field; lra). rewrite Rabs_mult, (Rabs_pos_eq D) by lra.
    apply Rle_trans with (D * (4 * u32 * E + (1 + / 100) * u32 * (1 + E))).
    - apply Rmult_le_compat_l; [lra|]. apply Rabs_le. rewrite U in *. lra.
    - rewrite Rmult_plus_distr_l. assert (D * (1 + E) = 1) by (unfold D; field; lra).
      replace (D * (4 * u32 * E)) with (4 * u32 * (D * E)) by ring. rewrite DE.
      replace (D * ((1 + / 100) * u32 * (1 + E))) with ((1 + / 100) * u32 * (D * (1 + E))) by ring. rewrite H0. lra. }
  assert (Hi2 : Rabs (i - D) <= (1 + / 100) * D * (4 * u32 * (1 - D) + (1 + / 100) * u32)).
  { apply Rabs_le_inv in Hs. assert (i * (B2R s) = 1) by (unfold i; field; lra).
    assert (I : i <= (1 + / 100) * D).
    { apply Rmult_le_reg_r with (B2R s); [lra|]. rewrite H0. replace ((1 + / 100) * D * B2R s) with ((1 + / 100) * (B2R s * D)) by ring. rewrite U in *. lra. }
    replace (i - D) with (i * (1 - B2R s * D)) by (rewrite Rmult_minus_distr_l; replace (i * (B2R s * D)) with ((i * B2R s) * D) by ring; rewrite H0; ring).
    rewrite Rabs_mult, (Rabs_pos_eq i) by lra. apply Rmult_le_compat; [lra|apply Rabs_pos|exact I|]. apply Rabs_le. lra. }
  assert (Q : D * (1 - D) <= / 4) by (pose proof (Rle_0_sqr (D - / 2)) as SQ; unfold Rsqr in SQ; clear - SQ; lra).
  assert (Hi3 : Rabs (i - D) <= (1 + / 50) * u32 + (1 + / 40) * u32 * D).
  { eapply Rle_trans; [exact Hi2|]. rewrite U. clear - Q HD D1. lra. }
  clear Hi2 Hs. apply Rabs_le_inv in Hi3. apply Rabs_le. rewrite U in *. lra.
Qed.

Lemma ln_le_1 : forall y, 0 < y -> ln y <= y - 1.
Proof. intros y Hy. pose proof (exp_ineq1_le (ln y)) as E. rewrite exp_ln in E by assumption. lra. Qed.
Lemma ln_pow : forall x n, 0 < x -> ln (x ^ n) = INR n * ln x.
Proof.
  intros x n Hx. induction n as [|n IH]; [cbn [pow INR]; rewrite ln_1; ring|]. cbn [pow]. rewrite ln_mult, IH, S_INR by (try apply pow_lt; assumption). ring.
Qed.
Lemma ln_le : forall x y, 0 < x -> x <= y -> ln x <= ln y.
Proof. intros x y Hx H. destruct (Rle_lt_or_eq_dec _ _ H) as [K| ->]; [apply Rlt_le, ln_increasing; assumption|lra]. Qed.
Lemma ln2_bounds : / 2 <= ln 2 <= 3 / 4.
Proof.
  split.
  - pose proof (ln_le_1 (/ 2) ltac:(lra)) as H. rewrite ln_Rinv in H by lra. lra.
  - (* 2 <= (9/8)^6 *)
    apply Rle_trans with (ln ((9 / 8) ^ 6)). { apply ln_le; [lra|]. cbn [pow]. lra. }
    rewrite ln_pow by lra. pose proof (ln_le_1 (9 / 8) ltac:(lra)) as H. cbn [INR]. lra.
Qed.
Lemma ln_half : forall y, 0 < y -> ln y <= y / 2.
Proof.
  intros y Hy. pose proof (ln_le_1 (y / 2) ltac:(lra)) as H. unfold Rdiv in H. rewrite ln_mult, ln_Rinv in H by lra. pose proof ln2_bounds. lra.
Qed.

(** The log-odds of the probabilities from 2^-80 on. *)
Lemma logodds_range : forall p : f32, finite p -> bp (-80) <= real p < 1 -> Rabs (exact_logodds (real p)) <= 60.
Proof.
  intros p Fp [H0 H1]. unfold real, exact_logodds in *. pose proof (bpow_gt_0 radix2 (-80)) as P80. pose proof ln2_bounds as L2.
  assert (K : forall n, ln (2 ^ n) <= INR n * (3 / 4)) by (intro n; rewrite ln_pow by lra; apply Rmult_le_compat_l; [apply pos_INR|lra]).
  assert (QL : bp (-24) <= 1 - B2R p).
  { assert (G : generic_format radix2 fexp32 (B2R p)) by apply generic_format_B2R.
    assert (L : B2R p <= pred radix2 fexp32 1).
    { apply pred_ge_gt; [apply fexp_correct; reflexivity|exact G| |exact H1]. change 1 with (bp 0). apply generic_format_bpow. unfold SpecFloat.fexp, SpecFloat.emin. lia. }
    change 1 with (bp 0) in L. rewrite pred_bpow in L by (apply fexp_correct; reflexivity).
    change (fexp32 0) with (-24)%Z in L. change (bp 0) with 1 in L. lra. }
  assert (P24 : bp (-24) = / 2 ^ 24) by (rewrite pow_IZR; reflexivity). assert (P80' : bp (-80) = / 2 ^ 80) by (rewrite pow_IZR; reflexivity).
  assert (T24 : 0 < 2 ^ 24) by (apply pow_lt; lra). assert (T80 : 0 < 2 ^ 80) by (apply pow_lt; lra).
  rewrite P24 in QL. rewrite P80' in H0, P80. pose proof (Rinv_0_lt_compat _ T24) as I24.
  apply Rabs_le. split.
  - assert (ln ((1 - B2R p) / B2R p) <= 60).
    { apply Rle_trans with (ln (2 ^ 80)). apply ln_le; [apply Rdiv_lt_0_compat; lra|].
      apply Rmult_le_reg_r with (B2R p); [lra|]. unfold Rdiv. rewrite Rmult_assoc, Rinv_l by lra.
      apply Rle_trans with (2 ^ 80 * / 2 ^ 80); [rewrite Rinv_r; lra|]. apply Rmult_le_compat_l; lra.
      eapply Rle_trans; [apply K|]. rewrite INR_IZR_INZ. cbn [Z.of_nat]. change (Z.pos (Pos.of_succ_nat 79)) with 80%Z. lra. }
    replace (B2R p / (1 - B2R p)) with (/ ((1 - B2R p) / B2R p)) by (field; lra). rewrite ln_Rinv by (apply Rdiv_lt_0_compat; lra). lra.
  - apply Rle_trans with (ln (2 ^ 24)). apply ln_le; [apply Rdiv_lt_0_compat; lra|].
    apply Rmult_le_reg_r with (1 - B2R p); [lra|]. unfold Rdiv. rewrite Rmult_assoc, Rinv_l by lra.
    apply Rle_trans with (2 ^ 24 * / 2 ^ 24); [rewrite Rinv_r; lra|]. apply Rmult_le_compat_l; lra.
    eapply Rle_trans; [apply K|]. rewrite INR_IZR_INZ. change (Z.of_nat 24) with 24%Z. lra.
Qed.

(** A small change of the log-odds. *)
Lemma exp_small : forall d, Rabs d <= / 100 -> Rabs (exp d - 1) <= (1 + / 50) * Rabs d.
Proof.
  intros d H. apply Rabs_le_inv in H. pose proof (exp_ineq1_le d) as E1. pose proof (exp_ineq1_le (- d)) as E2.
  pose proof (exp_pos d) as P. assert (M : exp d * exp (- d) = 1) by (rewrite <- exp_plus, Rplus_opp_r; apply exp_0).
  set (x := exp d) in *. assert (Hx : x * (1 - d) <= 1) by nra.
  assert (Hx2 : x <= / (1 - d)) by (apply Rmult_le_reg_r with (1 - d); [lra|]; rewrite Rinv_l by lra; exact Hx).
  assert (Hx3 : / (1 - d) - 1 = d * / (1 - d)) by (field; lra).
  assert (I : / (1 - d) <= 1 + / 50) by (apply Rle_trans with (/ (99 / 100)); [apply Rinv_le; lra|lra]).
  assert (I0 : 0 < / (1 - d)) by (apply Rinv_0_lt_compat; lra).
  unfold Rabs. destruct (Rcase_abs d) as [N|N]; destruct (Rcase_abs (x - 1)) as [N2|N2]; nra.
Qed.
Lemma sigma_near : forall p l, 0 < p < 1 -> Rabs (l - exact_logodds p) <= / 100 ->
  Rabs (exact_probability l - p) <= (1 + / 20) * (p * (1 - p)) * Rabs (l - exact_logodds p).
Proof.
  intros p l Hp H. unfold exact_probability, exact_logodds in *. set (d := l - ln (p / (1 - p))) in *.
  assert (E : exp l = p / (1 - p) * exp d). { unfold d. replace l with (ln (p / (1 - p)) + (l - ln (p / (1 - p)))) at 1 by ring. rewrite exp_plus, exp_ln; [reflexivity|apply Rdiv_lt_0_compat; lra]. }
  rewrite E. pose proof (exp_small d H) as S. set (x := exp d) in *. assert (Px : 0 < x) by apply exp_pos.
  assert (B : Rabs (x - 1) <= / 50). { eapply Rle_trans; [exact S|]. pose proof (Rabs_pos d). lra. }
  assert (DD : 0 < 1 - p + p * x) by nra.
  replace (p / (1 - p) * x / (1 + p / (1 - p) * x) - p) with (p * (1 - p) * (x - 1) * / (1 + p * (x - 1))) by (field; repeat split; try lra; apply Rgt_not_eq; nra).
  apply Rabs_le_inv in B. assert (D1 : 98 / 100 <= 1 + p * (x - 1)) by nra.
  assert (I : 0 < / (1 + p * (x - 1)) <= 100 / 98). { split; [apply Rinv_0_lt_compat; lra|]. apply Rle_trans with (/ (98 / 100)); [apply Rinv_le; lra|lra]. }
  rewrite !Rabs_mult, (Rabs_pos_eq p), (Rabs_pos_eq (1 - p)), (Rabs_pos_eq (/ _)) by lra.
  assert (PP : 0 < p * (1 - p)) by nra. set (i := / (1 + p * (x - 1))) in *. set (a := Rabs (x - 1)) in *. set (b := Rabs d) in *.
  assert (0 <= a) by apply Rabs_pos. assert (0 <= b) by apply Rabs_pos.
  replace ((1 + / 20) * (p * (1 - p)) * b) with (p * (1 - p) * ((1 + / 20) * b)) by ring. rewrite Rmult_assoc. apply Rmult_le_compat_l; [lra|]. nra.
Qed.

Lemma roundtrip_accurate : forall f g p, ln_accurate f -> exp_accurate g -> finite p -> bp (-80) <= real p < 1 ->
  let q := probability_from_logodds F32A g (logodds_from_probability F32A f p) in
  finite q /\ Rabs (real q - real p) <= bp (-21).
Proof.
  intros f g p A B Fp H. cbv zeta. assert (H' : bp (-100) <= real p < 1). { split; [|lra]. apply Rle_trans with (bp (-80)); [apply bpow_le; lia|lra]. }
  destruct (logodds_accurate f p A Fp H') as [Fl El]. pose proof (logodds_range p Fp H) as LR.
  set (l := logodds_from_probability F32A f p) in *. clearbody l. set (L := exact_logodds (real p)) in *.
  assert (P0 : 0 < real p) by (pose proof (bpow_gt_0 radix2 (-80)); lra).
  assert (U : u32 = / 16777216) by reflexivity. rewrite bp22 in El. pose proof (Rabs_pos L) as LP.
  assert (Sm : Rabs (real l - L) <= / 100) by (rewrite U in El; lra).
  assert (B64 : Rabs (real l) <= 64). { replace (real l) with (L + (real l - L)) by ring. eapply Rle_trans; [apply Rabs_triang|]. lra. }
  destruct (probability_accurate g l B Fl B64) as (Fq & _ & Eq). split; [exact Fq|].
  set (q := probability_from_logodds F32A g l) in *. clearbody q.
  pose proof (sigma_near (real p) (real l) (conj P0 (proj2 H)) Sm) as Sg. fold L in Sg.
  set (x := real p) in *. assert (X1 : x < 1) by lra. clearbody x.
  (* x (1 - x) |L| <= 1/2 *)
  assert (XL : x * (1 - x) * Rabs L <= / 2).
  { unfold L, exact_logodds. unfold Rabs. destruct (Rcase_abs _) as [N|N].
    - rewrite <- ln_Rinv by (apply Rdiv_lt_0_compat; lra). replace (/ (x / (1 - x))) with ((1 - x) / x) by (field; lra).
      pose proof (ln_half ((1 - x) / x) ltac:(apply Rdiv_lt_0_compat; lra)) as LH.
      apply Rle_trans with (x * (1 - x) * ((1 - x) / x / 2)). apply Rmult_le_compat_l; [nra|exact LH].
      replace (x * (1 - x) * ((1 - x) / x / 2)) with ((1 - x) * (1 - x) / 2) by (field; lra). nra.
    - pose proof (ln_half (x / (1 - x)) ltac:(apply Rdiv_lt_0_compat; lra)) as LH.
      apply Rle_trans with (x * (1 - x) * (x / (1 - x) / 2)). apply Rmult_le_compat_l; [nra|exact LH].
      replace (x * (1 - x) * (x / (1 - x) / 2)) with (x * x / 2) by (field; lra). nra. }
  assert (X4 : 0 < x * (1 - x) <= / 4). { split; [nra|]. pose proof (Rle_0_sqr (x - / 2)) as SQ; unfold Rsqr in SQ. clear - SQ. lra. }
  set (y := x * (1 - x)) in *. clearbody y.
  assert (F : Rabs (exact_probability (real l) - x) <= (1 + / 20) * 4 * u32 * (3 / 4)).
  { eapply Rle_trans; [exact Sg|]. apply Rle_trans with ((1 + / 20) * y * (4 * u32 * (1 + Rabs L))). apply Rmult_le_compat_l; [lra|exact El].
    replace ((1 + / 20) * y * (4 * u32 * (1 + Rabs L))) with ((1 + / 20) * 4 * u32 * (y + y * Rabs L)) by ring. apply Rmult_le_compat_l; [rewrite U; lra|lra]. }
  replace (real q - x) with ((real q - exact_probability (real l)) + (exact_probability (real l) - x)) by ring. eapply Rle_trans; [apply Rabs_triang|].
  change (bp (-21)) with (/ 2097152). rewrite U in *. lra.
Qed.

Lemma probability_near : forall f l, exp_accurate f -> finite l -> Rabs (real l) <= 64 ->
  let p := probability_from_logodds F32A f l in
  finite p /\ 0 <= real p <= 1 /\ Rabs (real p - exact_probability (real l)) <= bp (-22).
Proof.
  intros f l A F H. destruct (probability_accurate f l A F H) as (P1 & P2 & P3). split; [exact P1|]. split; [exact P2|].
  eapply Rle_trans; [exact P3|]. rewrite bp22. unfold u32. lra.
Qed.

(** ** Such functions exist *)
Definition f32_of_real (v : R) : f32 :=
  binary_normalize 24 128 _ _ mode_NE (Ztrunc (scaled_mantissa radix2 fexp32 (rnd v))) (cexp radix2 fexp32 (rnd v)) false.
Lemma f32_of_real_spec : forall v, Rabs v <= bp 127 -> finite (f32_of_real v) /\ real (f32_of_real v) = rnd v.
Proof.
  intros v H. unfold f32_of_real. set (z := Ztrunc _). set (e := cexp _ _ _).
  pose proof (binary_normalize_correct 24 128 _ _ mode_NE z e false) as C. cbv zeta in C.
  assert (G : generic_format radix2 fexp32 (rnd v)) by (apply generic_format_round; auto with typeclass_instances).
  assert (E : F2R (Float radix2 z e) = rnd v) by (symmetry; exact G). rewrite E in C.
  cbn [round_mode] in C. rewrite (round_generic radix2 (SpecFloat.fexp 24 128) ZnearestE _ G) in C.
  rewrite Rlt_bool_true in C by (apply rnd_abs_lt_128; exact H). destruct C as (C1 & C2 & _). split; [exact C2|exact C1].
Qed.
Definition near_ln (x : f32) : f32 := f32_of_real (ln (real x)).
Definition near_exp (x : f32) : f32 := f32_of_real (exp (real x)).
Lemma near_exp_accurate : exp_accurate near_exp.
Proof.
  intros x F H. unfold near_exp. destruct (exp_64 _ H) as [P B]. destruct (f32_of_real_spec (exp (real x))) as [F1 E1].
  { rewrite Rabs_pos_eq by lra. apply Rle_trans with (1 := B). apply bpow_le; lia. }
  split; [exact F1|]. rewrite E1. rewrite <- (Rabs_pos_eq (exp (real x))) at 3 by lra. eapply Rle_trans; [apply rnd_rel_normal|].
  - rewrite Rabs_pos_eq by lra. rewrite <- Rabs_Ropp in H. destruct (exp_64 _ H) as [P' B']. rewrite exp_Ropp in B'.
    apply Rle_trans with (bp (-102)); [apply bpow_le; lia|]. replace (bp (-102)) with (/ bp 102) by (symmetry; apply (bpow_opp radix2 102)).
    rewrite <- (Rinv_inv (exp (real x))). apply Rinv_le; [apply Rinv_0_lt_compat; lra|exact B'].
  - rewrite bp22. pose proof (Rabs_pos (exp (real x))). unfold u32. lra.
Qed.
Lemma near_ln_accurate : ln_accurate near_ln.
Proof.
  intros x F P. unfold near_ln. unfold finite, real in F, P.
  assert (G : generic_format radix2 fexp32 (B2R x)) by apply generic_format_B2R.
  assert (G1 : generic_format radix2 fexp32 1) by (change 1 with (bp 0); apply generic_format_bpow; unfold SpecFloat.fexp, SpecFloat.emin; lia).
  assert (V : Valid_exp fexp32) by (apply fexp_correct; reflexivity).
  assert (Up : Rabs (ln (real x)) <= bp 127).
  { unfold real. assert (B2R x <= bp 128) by (pose proof (abs_B2R_lt_emax 24 128 x) as Q; rewrite Rabs_pos_eq in Q by lra; lra).
    assert (bp (-149) <= B2R x).
    { destruct (on_grid_float x) as [m E]. rewrite E in P |- *. unfold F2R in *. cbn [Fnum Fexp] in *. pose proof (bpow_gt_0 radix2 (-149)). assert (0 < m)%Z by (apply lt_IZR; nra). assert (1 <= IZR m) by (apply IZR_le; lia). nra. }
    pose proof ln2_bounds as L2. assert (K : forall n, ln (2 ^ n) <= INR n * (3 / 4)) by (intro n; rewrite ln_pow by lra; apply Rmult_le_compat_l; [apply pos_INR|lra]).
    apply Rle_trans with (bp 7); [change (bp 7) with 128|apply bpow_le; lia]. apply Rabs_le. split.
    - assert (ln (/ B2R x) <= 128); [|rewrite ln_Rinv in H1 by lra; lra].
      apply Rle_trans with (ln (2 ^ 149)). apply ln_le; [apply Rinv_0_lt_compat; lra|]. replace (2 ^ 149) with (/ bp (-149)). apply Rinv_le; [apply bpow_gt_0|assumption].
      rewrite <- bpow_opp. rewrite pow_IZR. reflexivity.
      eapply Rle_trans; [apply K|]. rewrite INR_IZR_INZ. change (Z.of_nat 149) with 149%Z. lra.
    - apply Rle_trans with (ln (2 ^ 128)). apply ln_le; [lra|]. rewrite pow_IZR. exact H.
      eapply Rle_trans; [apply K|]. rewrite INR_IZR_INZ. change (Z.of_nat 128) with 128%Z. lra. }
  destruct (f32_of_real_spec (ln (real x)) Up) as [F1 E1]. split; [exact F1|]. rewrite E1. unfold real. unfold real in Up. clear F1 E1.
  destruct (total_order_T (B2R x) 1) as [[L|L]|L].
  - eapply Rle_trans; [apply rnd_rel_normal|rewrite bp22; pose proof (Rabs_pos (ln (B2R x))); unfold u32; lra].
    assert (B2R x <= 1 - bp (-24)).
    { assert (Q : B2R x <= pred radix2 fexp32 1) by (apply pred_ge_gt; assumption).
      change 1 with (bp 0) in Q. rewrite pred_bpow in Q by assumption. change (fexp32 0) with (-24)%Z in Q. change (bp 0) with 1 in Q. lra. }
    pose proof (ln_le_1 _ P). pose proof (bpow_gt_0 radix2 (-24)). rewrite Rabs_left by lra. apply Rle_trans with (bp (-24)); [apply bpow_le; lia|lra].
  - rewrite L, ln_1, rnd_0, Rminus_0_r, Rabs_R0. lra.
  - eapply Rle_trans; [apply rnd_rel_normal|rewrite bp22; pose proof (Rabs_pos (ln (B2R x))); unfold u32; lra].
    assert (1 + bp (-23) <= B2R x).
    { assert (Q : succ radix2 fexp32 1 <= B2R x) by (apply succ_le_lt; assumption).
      change 1 with (bp 0) in Q. rewrite succ_eq_pos, ulp_bpow in Q by (apply bpow_ge_0). change (fexp32 (0 + 1)) with (-23)%Z in Q. exact Q. }
    pose proof (ln_le_1 (/ B2R x) (Rinv_0_lt_compat _ P)) as H1. rewrite ln_Rinv in H1 by assumption.
    assert (I : / B2R x <= 1 - bp (-24)). { apply Rle_trans with (/ (1 + bp (-23))). apply Rinv_le; [pose proof (bpow_gt_0 radix2 (-23)); lra|assumption]. change (bp (-23)) with (/ 8388608). change (bp (-24)) with (/ 16777216). lra. }
    pose proof (bpow_gt_0 radix2 (-24)). rewrite Rabs_pos_eq by lra. apply Rle_trans with (bp (-24)); [apply bpow_le; lia|lra].
Qed.
