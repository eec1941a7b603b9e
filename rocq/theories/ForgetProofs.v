(** How many scans it takes to change the state of a cell. *)
From Coq Require Import ZArith List Bool Reals Lra Lia Psatz.
From Flocq Require Import Core BinarySingleNaN.
From Verif Require Import Base F32 FloatFacts RoundError Arith Geom NdArray GridMap RayCaster NoiseModel Spec SpecMap SpecNoise SpecOdds MathProofs OddsProofs BoundsProofs NoiseProofs ScanProofs Examples.
Open Scope R_scope.

Lemma fle_real : forall x y : f32, finite x -> finite y -> (fle x y <-> real x <= real y).
Proof. intros x y Fx Fy. rewrite fle_iff. unfold real. rewrite !ext_finite by assumption. pose proof (is_finite_not_nan _ Fx). pose proof (is_finite_not_nan _ Fy). tauto. Qed.
Lemma flt_real : forall x y : f32, finite x -> finite y -> (fltb x y = true <-> real x < real y).
Proof. intros x y Fx Fy. rewrite fltb_iff. unfold real. rewrite !ext_finite by assumption. pose proof (is_finite_not_nan _ Fx). pose proof (is_finite_not_nan _ Fy). tauto. Qed.
Lemma fmin_real : forall x y : f32, finite x -> finite y -> finite (fmin x y) /\ real (fmin x y) = Rmin (real x) (real y).
Proof.
  intros x y Fx Fy. assert (F : finite (fmin x y)) by (destruct (fmin_cases x y) as [->| ->]; assumption). split; [exact F|].
  pose proof (fmin_ext x y (is_finite_not_nan _ Fx) (is_finite_not_nan _ Fy)) as E. rewrite !ext_finite in E by assumption. exact E.
Qed.
Lemma fmax_real : forall x y : f32, finite x -> finite y -> finite (fmax x y) /\ real (fmax x y) = Rmax (real x) (real y).
Proof.
  intros x y Fx Fy. assert (F : finite (fmax x y)) by (destruct (fmax_cases x y) as [->| ->]; assumption). split; [exact F|].
  pose proof (fmax_ext x y (is_finite_not_nan _ Fx) (is_finite_not_nan _ Fy)) as E. rewrite !ext_finite in E by assumption. exact E.
Qed.

(** Adding evidence that counts. *)
Lemma add_counts : forall v x : f32, finite v -> finite x -> 0 < Rabs (real x) <= bp 100 -> Rabs (real v) <= 4096 * Rabs (real x) ->
  finite (fadd v x) /\ Rabs (real (fadd v x) - (real v + real x)) <= / 1024 * Rabs (real x).
Proof.
  intros v x Fv Fx [P B] H. unfold finite, real in *. set (s := Rabs (B2R x)) in *.
  assert (T : Rabs (B2R v + B2R x) <= 4097 * s) by (eapply Rle_trans; [apply Rabs_triang|]; fold s; lra).
  destruct (fadd_fin v x Fv Fx) as [F E].
  { apply rnd_abs_lt_128. apply Rle_trans with (bp 13 * bp 100); [change (bp 13) with 8192; lra|rewrite <- bpow_plus; apply bpow_le; lia]. }
  split; [exact F|]. rewrite E. eapply Rle_trans; [apply rnd_add_rel|]. unfold u32. lra.
Qed.

Section Model.
Context (m : lidar) (MO : moderate_model m) (SG : signs_ok m).
Definition between (v : f32) : Prop := finite v /\ real (min_logodds m) <= real v <= real (max_logodds m).

Lemma mod_hit : finite (hit_logodds m) /\ Rabs (real (hit_logodds m)) <= bp 100.
Proof. unfold moderate_model in MO. rewrite Forall_forall in MO. apply MO. cbn. tauto. Qed.
Lemma mod_miss : finite (miss_logodds m) /\ Rabs (real (miss_logodds m)) <= bp 100.
Proof. unfold moderate_model in MO. rewrite Forall_forall in MO. apply MO. cbn. tauto. Qed.
Lemma mod_min : finite (min_logodds m) /\ Rabs (real (min_logodds m)) <= bp 100.
Proof. unfold moderate_model in MO. rewrite Forall_forall in MO. apply MO. cbn. tauto. Qed.
Lemma mod_max : finite (max_logodds m) /\ Rabs (real (max_logodds m)) <= bp 100.
Proof. unfold moderate_model in MO. rewrite Forall_forall in MO. apply MO. cbn. tauto. Qed.
Lemma mod_thr : finite (occupied_threshold_logodds m) /\ Rabs (real (occupied_threshold_logodds m)) <= bp 100.
Proof. unfold moderate_model in MO. rewrite Forall_forall in MO. apply MO. cbn. tauto. Qed.

Lemma between_fle : forall v, fle (min_logodds m) v -> fle v (max_logodds m) -> between v.
Proof.
  intros v H1 H2. assert (F : finite v).
  { destruct mod_min as [F1 _], mod_max as [F2 _]. unfold finite in *. destruct v as [s|s| |s mm e B]; [reflexivity| | |reflexivity]; exfalso.
    - destruct s; [destruct (min_logodds m) as [| | |[] ? ? ?]|destruct (max_logodds m) as [| | |[] ? ? ?]]; discriminate.
    - destruct (min_logodds m); discriminate. }
  split; [exact F|]. split; apply fle_real; auto; [apply mod_min|apply mod_max].
Qed.
Lemma between_evidence : forall v x, between v -> between (observe m v x).
Proof.
  intros v x B. destruct SG as (S1 & S2 & S3 & S4). destruct B as [F [B1 B2]].
  apply (fle_real _ _ (proj1 mod_min) F) in B1. apply (fle_real _ _ F (proj1 mod_max)) in B2.
  destruct x as [[|]|]; cbn [observe]; [| |now apply between_fle].
  - destruct (hit_up m v S1 B2) as [U1 U2]. apply between_fle; [exact (fle_trans' _ _ _ B1 U1)|exact U2].
  - destruct (miss_down m v S2 B1) as [U1 U2]. apply between_fle; [exact U2|exact (fle_trans' _ _ _ U1 B2)].
Qed.
Lemma between_history : forall vs v, between v -> between (fold_left (observe m) vs v).
Proof. induction vs as [|x vs IH]; intros v B; [exact B|]. cbn [fold_left]. apply IH, between_evidence, B. Qed.
Lemma between_new : between f0.
Proof. destruct SG as (_ & _ & S3 & S4). now apply between_fle. Qed.

Lemma between_abs : forall v s, between v -> counts m s -> Rabs (real v) <= 4096 * s.
Proof. intros v s [_ B] (_ & C1 & C2). apply Rabs_le_inv in C1. apply Rabs_le_inv in C2. apply Rabs_le. lra. Qed.

(** Crossing the cell. *)
Lemma crossed : forall vs v, counts m (- real (miss_logodds m)) -> between v -> Forall (fun x => x = None \/ x = Some false) vs ->
  let s := - real (miss_logodds m) in let n := INR (seen false vs) in let v' := real (fold_left (observe m) vs v) in
  v' <= Rmax (real (min_logodds m)) (real v - n * (1023 / 1024 * s)) /\ real v - n * (1025 / 1024 * s) <= v'.
Proof.
  intros vs v C B F. cbv zeta. revert v B. induction F as [|x vs Hx F IH]; intros v B.
  - cbn [fold_left seen filter length INR]. split; [eapply Rle_trans; [|apply Rmax_r]|]; lra.
  - destruct Hx as [->| ->]; cbn [fold_left observe].
    + change (seen false (None :: vs)) with (seen false vs). now apply IH.
    + change (seen false (Some false :: vs)) with (S (seen false vs)). rewrite S_INR.
      assert (B' : between (evidence m v false)) by exact (between_evidence v (Some false) B).
      destruct (IH _ B') as [I1 I2]. destruct mod_miss as [Fm Bm]. destruct C as (C0 & C1 & C2).
      assert (As : Rabs (real (miss_logodds m)) = - real (miss_logodds m)) by (apply Rabs_left; lra).
      destruct (add_counts v (miss_logodds m) (proj1 B) Fm) as [Fa Ea].
      { rewrite As in *. lra. } { rewrite As. apply between_abs; [exact B|]. now repeat split. }
      rewrite As in Ea. apply Rabs_le_inv in Ea.
      unfold evidence in *. destruct (fmax_real (fadd v (miss_logodds m)) (min_logodds m) Fa (proj1 mod_min)) as [_ E].
      set (e := fmax _ _) in *. set (s := - real (miss_logodds m)) in *. set (n := INR _) in *.
      pose proof (pos_INR (seen false vs)) as Pn. fold n in Pn.
      split.
      * eapply Rle_trans; [exact I1|]. rewrite E. pose proof (Rmax_l (real (min_logodds m)) (real v - (n + 1) * (1023 / 1024 * s))). pose proof (Rmax_r (real (min_logodds m)) (real v - (n + 1) * (1023 / 1024 * s))).
        apply Rmax_lub; [assumption|]. unfold Rmax at 1. destruct (Rle_dec _ _); [|unfold s in *; lra].
        assert (0 <= n * (1023 / 1024 * s)) by (apply Rmult_le_pos; lra). lra.
      * eapply Rle_trans; [|exact I2]. rewrite E. pose proof (Rmax_l (real (fadd v (miss_logodds m))) (real (min_logodds m))). unfold s in *. lra.
Qed.
(** Hitting it. *)
Lemma struck : forall vs v, counts m (real (hit_logodds m)) -> between v -> Forall (fun x => x = None \/ x = Some true) vs ->
  let s := real (hit_logodds m) in let n := INR (seen true vs) in let v' := real (fold_left (observe m) vs v) in
  Rmin (real (max_logodds m)) (real v + n * (1023 / 1024 * s)) <= v' /\ v' <= real v + n * (1025 / 1024 * s).
Proof.
  intros vs v C B F. cbv zeta. revert v B. induction F as [|x vs Hx F IH]; intros v B.
  - cbn [fold_left seen filter length INR]. split; [eapply Rle_trans; [apply Rmin_r|]|]; lra.
  - destruct Hx as [->| ->]; cbn [fold_left observe].
    + change (seen true (None :: vs)) with (seen true vs). now apply IH.
    + change (seen true (Some true :: vs)) with (S (seen true vs)). rewrite S_INR.
      assert (B' : between (evidence m v true)) by exact (between_evidence v (Some true) B).
      destruct (IH _ B') as [I1 I2]. destruct mod_hit as [Fm Bm]. destruct C as (C0 & C1 & C2).
      assert (As : Rabs (real (hit_logodds m)) = real (hit_logodds m)) by (apply Rabs_pos_eq; lra).
      destruct (add_counts v (hit_logodds m) (proj1 B) Fm) as [Fa Ea].
      { rewrite As in *. lra. } { rewrite As. apply between_abs; [exact B|]. now repeat split. }
      rewrite As in Ea. apply Rabs_le_inv in Ea.
      unfold evidence in *. destruct (fmin_real (fadd v (hit_logodds m)) (max_logodds m) Fa (proj1 mod_max)) as [_ E].
      set (e := fmin _ _) in *. set (s := real (hit_logodds m)) in *. set (n := INR _) in *.
      pose proof (pos_INR (seen true vs)) as Pn. fold n in Pn.
      split.
      * eapply Rle_trans; [|exact I1]. rewrite E. pose proof (Rmin_l (real (max_logodds m)) (real v + (n + 1) * (1023 / 1024 * s))). pose proof (Rmin_r (real (max_logodds m)) (real v + (n + 1) * (1023 / 1024 * s))).
        apply Rmin_glb; [assumption|]. unfold Rmin at 2. destruct (Rle_dec _ _); [lra|].
        assert (0 <= n * (1023 / 1024 * s)) by (apply Rmult_le_pos; lra). lra.
      * eapply Rle_trans; [exact I2|]. rewrite E. pose proof (Rmin_l (real (fadd v (hit_logodds m))) (real (max_logodds m))). lra.
Qed.
End Model.

Lemma seen_some : forall h vs, (1 <= seen h vs)%nat -> Exists (fun v : option bool => v <> None) vs.
Proof.
  intros h vs. induction vs as [|x vs IH]; intro H; [cbn in H; lia|]. destruct x as [b|]; [now left|]. right. apply IH. exact H.
Qed.

(** From the history of a cell to what the map says. *)
Lemma cell_says : forall d r t m o L w vs, map_range d r t -> limit_near (max_range m) r -> scanned d r t m o L ->
  length w = d -> Forall2 (says (max_range m) r w) L vs -> moderate_model m -> signs_ok m ->
  exists cb, covers_cells d r t (om_grid o) cb /\ (Exists (fun v => v <> None) vs ->
    in_box cb w /\ forall b, (b = true <-> real (occupied_threshold_logodds m) < real (fold_left (observe m) vs f0)) -> om_occupied o (map2 Z.sub w (cmin cb)) = Ret b).
Proof.
  intros d r t m o L w vs M HM H Lw S MO SG. destruct (scans_values d r t m o L w vs M HM H Lw S) as (cb & C & [V _] & I).
  exists cb. split; [exact C|]. intro X. split; [exact (I X)|]. intros b Hb.
  destruct (scanned_facts _ _ _ _ _ _ H) as [Em _]. unfold om_occupied, occupied. rewrite Em.
  match goal with |- obind ?x _ = _ => replace x with (Ret (fold_left (observe m) vs f0)) by (symmetry; exact (V (I X))) end. cbn [obind].
  pose proof (between_history m MO SG vs f0 (between_new m MO SG)) as [F _].
  pose proof (flt_real _ _ (proj1 (mod_thr m MO)) F) as Q. f_equal. destruct b, (fltb _ _) eqn:E; try reflexivity.
  - destruct (proj2 Q (proj1 Hb eq_refl)). reflexivity.
  - symmetry. apply Hb, Q. reflexivity.
Qed.

Lemma forgets : forall d r t m o L w vs0 vs1, map_range d r t -> limit_near (max_range m) r -> signs_ok m -> moderate_model m ->
  scanned d r t m o L -> length w = d -> Forall2 (says (max_range m) r w) L (vs0 ++ vs1) ->
  let thr := real (occupied_threshold_logodds m) in
  exists cb, covers_cells d r t (om_grid o) cb /\
    (Forall (fun v => v = None \/ v = Some false) vs1 -> (1 <= seen false vs1)%nat -> counts m (- real (miss_logodds m)) ->
     real (min_logodds m) <= thr -> real (max_logodds m) - thr <= INR (seen false vs1) * (1023 / 1024 * - real (miss_logodds m)) ->
     in_box cb w /\ om_occupied o (map2 Z.sub w (cmin cb)) = Ret false) /\
    (Forall (fun v => v = None \/ v = Some true) vs1 -> (1 <= seen true vs1)%nat -> counts m (real (hit_logodds m)) ->
     thr < real (max_logodds m) -> thr - real (min_logodds m) < INR (seen true vs1) * (1023 / 1024 * real (hit_logodds m)) ->
     in_box cb w /\ om_occupied o (map2 Z.sub w (cmin cb)) = Ret true).
Proof.
  intros d r t m o L w vs0 vs1 M HM SG MO H Lw S. cbv zeta.
  destruct (cell_says d r t m o L w _ M HM H Lw S MO SG) as (cb & C & K). exists cb. split; [exact C|]. rewrite fold_left_app in K.
  pose proof (between_history m MO SG vs0 f0 (between_new m MO SG)) as B0. set (v0 := fold_left (observe m) vs0 f0) in *.
  split; intros F N CO H1 H2; (destruct K as [IB K]; [apply Exists_app; right; exact (seen_some _ _ N)|]); (split; [exact IB|]); apply K.
  - destruct (crossed m MO SG vs1 v0 CO B0 F) as [U _]. destruct B0 as [_ [_ B0]]. split; [discriminate|]. intro X. exfalso.
    revert U. unfold Rmax. destruct (Rle_dec _ _); lra.
  - destruct (struck m MO SG vs1 v0 CO B0 F) as [U _]. destruct B0 as [_ [B0 _]]. split; [intros _|reflexivity].
    revert U. unfold Rmin. destruct (Rle_dec _ _); lra.
Qed.

(** ** The default model *)
Lemma ln_ge_1 : forall y, 0 < y -> 1 - / y <= ln y.
Proof. intros y Hy. pose proof (ln_le_1 (/ y) (Rinv_0_lt_compat _ Hy)) as H. rewrite ln_Rinv in H by assumption. lra. Qed.
(** a^n >= b gives n ln a >= ln b, with a margin *)
Lemma ln_margin : forall a b n k, 0 < a -> 0 < b -> 0 <= k < 1 -> b <= (1 - k) * a ^ n -> ln b + k <= INR n * ln a.
Proof.
  intros a b n k Ha Hb Hk H. rewrite <- ln_pow by assumption. assert (P : 0 < a ^ n) by (apply pow_lt; assumption).
  pose proof (ln_le_1 (b / a ^ n) ltac:(apply Rdiv_lt_0_compat; assumption)) as Q. unfold Rdiv in Q.
  rewrite ln_mult, ln_Rinv in Q by (try apply Rinv_0_lt_compat; assumption).
  assert (b * / a ^ n <= 1 - k). { apply Rmult_le_reg_r with (a ^ n); [exact P|]. rewrite Rmult_assoc, Rinv_l by lra. lra. }
  lra.
Qed.

(** The log-odds of a probability between bounds. *)
Lemma logodds_between : forall f p a b, ln_accurate f -> finite p -> bp (-100) <= real p < 1 -> 0 < a -> a <= real p / (1 - real p) <= b ->
  / 100 <= a -> b <= 100 ->
  let l := logodds_from_probability F32A f p in
  finite l /\ ln a - / 10000 <= real l <= ln b + / 10000.
Proof.
  intros f p a b A F H Ha [H1 H2] Hl Hh. cbv zeta. destruct (logodds_accurate f p A F H) as [Fl E]. split; [exact Fl|]. unfold exact_logodds in E.
  set (o := real p / (1 - real p)) in *. assert (L1 : ln a <= ln o) by (apply ln_le; lra). assert (L2 : ln o <= ln b) by (apply ln_le; lra).
  assert (B : Rabs (ln o) <= 100). { apply Rabs_le. pose proof (ln_le_1 o ltac:(lra)). pose proof (ln_ge_1 o ltac:(lra)) as G. assert (/ o <= / / 100) by (apply Rinv_le; lra). lra. }
  change (bp (-22)) with (/ 4194304) in E. apply Rabs_le_inv in E. lra.
Qed.

Definition default_numbers (m : lidar) : Prop :=
  Forall (fun x => finite x) [hit_logodds m; miss_logodds m; min_logodds m; max_logodds m; occupied_threshold_logodds m] /\
  ln (233 / 100) - / 10000 <= real (hit_logodds m) <= ln (234 / 100) + / 10000 /\
  ln (149 / 100) - / 10000 <= - real (miss_logodds m) <= ln (151 / 100) + / 10000 /\
  ln (738 / 100) - / 10000 <= - real (min_logodds m) <= ln (740 / 100) + / 10000 /\
  ln (334 / 10) - / 10000 <= real (max_logodds m) <= ln (336 / 10) + / 10000 /\
  real (occupied_threshold_logodds m) = 0.
Lemma default_values : forall f, ln_accurate f -> exists m, lidar_default f = Ret m /\ default_numbers m /\ max_range m = DEFAULT_MAX_RANGE.
Proof.
  intros f A. unfold lidar_default, lidar_new, oassert.
  repeat match goal with |- context [is_probability ?p] => replace (is_probability p) with true by (vm_compute; reflexivity) end. cbn [obind].
  eexists. split; [reflexivity|]. split; [|reflexivity]. unfold default_numbers. cbn [hit_logodds miss_logodds min_logodds max_logodds occupied_threshold_logodds].
  assert (S100 : bp (-100) <= / 100). { apply Rle_trans with (bp (-7)); [apply bpow_le; lia|change (bp (-7)) with (/ 128); lra]. }
  assert (N : forall p a b, finite p -> / 100 <= real p < 1 -> / 100 <= a -> a <= real p / (1 - real p) <= b -> b <= 100 ->
    let l := logodds_from_probability F32A f p in finite l /\ ln a - / 10000 <= real l <= ln b + / 10000).
  { intros p a b F H Ha H1 H2. apply logodds_between; auto; lra. }
  assert (V7 : real DEFAULT_HIT_PROBABILITY = 11744051 / 16777216) by (unfold real, DEFAULT_HIT_PROBABILITY; closed_float (f32_lit 7 10); rewrite V; lra).
  assert (V4 : real DEFAULT_MISS_PROBABILITY = 13421773 / 33554432) by (unfold real, DEFAULT_MISS_PROBABILITY; closed_float (f32_lit 4 10); rewrite V; lra).
  assert (V5 : real DEFAULT_OCCUPIED_THRESHOLD = / 2) by (unfold real, DEFAULT_OCCUPIED_THRESHOLD; closed_float (f32_lit 5 10); rewrite V; lra).
  assert (V1 : 11919 / 100000 <= real DEFAULT_MIN_PROBABILITY <= 11921 / 100000) by (unfold real, DEFAULT_MIN_PROBABILITY; closed_float (f32_lit 1192 10000); rewrite V; lra).
  assert (V9 : 97099 / 100000 <= real DEFAULT_MAX_PROBABILITY <= 97101 / 100000) by (unfold real, DEFAULT_MAX_PROBABILITY; closed_float (f32_lit 971 1000); rewrite V; lra).
  assert (Q : forall p a b, 0 < p < 1 -> a * (1 - p) <= p <= b * (1 - p) -> a <= p / (1 - p) <= b).
  { intros p a b Hp [Q1 Q2]. split; apply Rmult_le_reg_r with (1 - p); try lra; unfold Rdiv; rewrite Rmult_assoc, Rinv_l by lra; lra. }
  destruct (N DEFAULT_HIT_PROBABILITY (233 / 100) (234 / 100)) as [F7 E7]; [reflexivity|lra|lra|apply Q; lra|lra|].
  destruct (N DEFAULT_MISS_PROBABILITY (/ (151 / 100)) (/ (149 / 100))) as [F4 E4]; [reflexivity|lra|lra|apply Q; lra|lra|].
  destruct (N DEFAULT_MIN_PROBABILITY (/ (740 / 100)) (/ (738 / 100))) as [F1 E1]; [reflexivity|lra|lra|apply Q; lra|lra|].
  destruct (N DEFAULT_MAX_PROBABILITY (334 / 10) (336 / 10)) as [F9 E9]; [reflexivity|lra|lra|apply Q; lra|lra|].
  rewrite !ln_Rinv in E4, E1 by lra.
  assert (H5 : finite DEFAULT_OCCUPIED_THRESHOLD) by reflexivity.
  destruct (logodds_accurate f DEFAULT_OCCUPIED_THRESHOLD A H5) as [F5 _]; [rewrite V5; lra|].
  assert (X1 : fdiv DEFAULT_OCCUPIED_THRESHOLD (fsub f1 DEFAULT_OCCUPIED_THRESHOLD) = f1) by (apply B2SF_inj; vm_compute; reflexivity).
  assert (E5 : real (logodds_from_probability F32A f DEFAULT_OCCUPIED_THRESHOLD) = 0).
  { unfold logodds_from_probability. cbn [tdiv tsub tone F32A]. rewrite X1. destruct (A f1) as [_ E]; [reflexivity|unfold real; rewrite f1_real; lra|].
    unfold real in *. rewrite f1_real, ln_1, Rabs_R0, Rmult_0_r, Rminus_0_r in E. pose proof (Rabs_pos (B2R (f f1))). destruct (Req_dec (B2R (f f1)) 0) as [K|K]; [exact K|]. apply Rabs_no_R0 in K. lra. }
  split; [repeat constructor; assumption|]. split; [exact E7|]. split; [lra|]. split; [lra|]. split; [exact E9|exact E5].
Qed.

Lemma default_bounds : forall m, default_numbers m -> moderate_model m /\ signs_ok m /\
  counts m (real (hit_logodds m)) /\ counts m (- real (miss_logodds m)) /\ let h := real (hit_logodds m) in let s := - real (miss_logodds m) in
  let mn := - real (min_logodds m) in let mx := real (max_logodds m) in
  mx <= 9 * (1023 / 1024 * s) /\ 8 * (1025 / 1024 * s) < mx /\ mn < 3 * (1023 / 1024 * h) /\ 2 * (1025 / 1024 * h) <= mn /\
  mn + mx <= 7 * (1023 / 1024 * h) /\ mn + mx <= 14 * (1023 / 1024 * s) /\ 0 < mx /\ 0 < mn.
Proof.
  intros m (F & Hh & Hs & Hn & Hx & Ht). cbv zeta.
  pose proof (ln_ge_1 (233 / 100) ltac:(lra)) as L1. pose proof (ln_le_1 (234 / 100) ltac:(lra)) as L2. pose proof (ln_ge_1 (149 / 100) ltac:(lra)) as L3. pose proof (ln_le_1 (151 / 100) ltac:(lra)) as L4.
  pose proof (ln_ge_1 (738 / 100) ltac:(lra)) as L5. pose proof (ln_le_1 (740 / 100) ltac:(lra)) as L6. pose proof (ln_ge_1 (334 / 10) ltac:(lra)) as L7. pose proof (ln_le_1 (336 / 10) ltac:(lra)) as L8.
  set (h := real (hit_logodds m)) in *. set (s := real (miss_logodds m)) in *. set (mn := real (min_logodds m)) in *. set (mx := real (max_logodds m)) in *. set (th := real (occupied_threshold_logodds m)) in *.
  assert (B100 : 128 <= bp 100) by (change 128 with (bp 7); apply bpow_le; lia).
  inversion_clear F as [|? ? F1 F']. inversion_clear F' as [|? ? F2 F]. inversion_clear F as [|? ? F3 F']. inversion_clear F' as [|? ? F4 F]. inversion_clear F as [|? ? F5 _].
  pose proof (ln_margin (149 / 100) (336 / 10) 9 (5 / 100) ltac:(lra) ltac:(lra) ltac:(lra) ltac:(cbn [pow]; lra)) as M1.
  pose proof (ln_margin (334 / 10) ((151 / 100) ^ 8) 1 (15 / 100) ltac:(lra) ltac:(apply pow_lt; lra) ltac:(lra) ltac:(cbn [pow]; lra)) as M2. rewrite ln_pow in M2 by lra.
  pose proof (ln_margin (233 / 100) (740 / 100) 3 (40 / 100) ltac:(lra) ltac:(lra) ltac:(lra) ltac:(cbn [pow]; lra)) as M3.
  pose proof (ln_margin (738 / 100) ((234 / 100) ^ 2) 1 (20 / 100) ltac:(lra) ltac:(apply pow_lt; lra) ltac:(lra) ltac:(cbn [pow]; lra)) as M4. rewrite ln_pow in M4 by lra.
  pose proof (ln_margin (233 / 100) ((740 / 100) * (336 / 10)) 7 (25 / 100) ltac:(lra) ltac:(lra) ltac:(lra) ltac:(cbn [pow]; lra)) as M5. rewrite ln_mult in M5 by lra.
  pose proof (ln_margin (149 / 100) ((740 / 100) * (336 / 10)) 14 (6 / 100) ltac:(lra) ltac:(lra) ltac:(lra) ltac:(cbn [pow]; lra)) as M6. rewrite ln_mult in M6 by lra.
  cbn [INR] in M1, M2, M3, M4, M5, M6.
  split; [|split; [|split; [|split]]].
  - unfold moderate_model. repeat apply Forall_cons; try apply Forall_nil; (split; [assumption|]); apply Rabs_le; fold h s mn mx th; lra.
  - unfold signs_ok. assert (F0 : finite f0) by reflexivity. assert (R0 : real f0 = 0) by reflexivity.
    rewrite (fle_real f0 _ F0 F1), (fle_real _ f0 F2 F0), (fle_real _ f0 F3 F0), (fle_real f0 _ F0 F4), R0. fold h s mn mx. lra.
  - unfold counts. fold mn mx. split; [lra|]. split; apply Rabs_le; lra.
  - unfold counts. fold mn mx. split; [lra|]. split; apply Rabs_le; lra.
  - lra.
Qed.

Lemma default_forgets : forall f, ln_accurate f -> exists m, lidar_default f = Ret m /\
  forall d r t o L w vs0 vs1, map_range d r t -> limit_near DEFAULT_MAX_RANGE r -> scanned d r t m o L -> length w = d -> Forall2 (says DEFAULT_MAX_RANGE r w) L (vs0 ++ vs1) ->
  exists cb, covers_cells d r t (om_grid o) cb /\
    (Forall (fun v => v = None \/ v = Some false) vs1 -> (9 <= seen false vs1)%nat ->
     in_box cb w /\ om_occupied o (map2 Z.sub w (cmin cb)) = Ret false) /\
    (Forall (fun v => v = None \/ v = Some true) vs1 -> (3 <= seen true vs1)%nat ->
     in_box cb w /\ om_occupied o (map2 Z.sub w (cmin cb)) = Ret true).
Proof.
  intros f A. destruct (default_values f A) as (m & E & N & R). exists m. split; [exact E|]. destruct (default_bounds m N) as (MO & SG & C1 & C2 & K). cbv zeta in K.
  destruct N as (_ & _ & _ & _ & _ & T). rewrite <- R. intros d r t o L w vs0 vs1 M HM H Lw S.
  destruct (forgets d r t m o L w vs0 vs1 M HM SG MO H Lw S) as (cb & C & K1 & K2). rewrite T in K1, K2. exists cb. split; [exact C|].
  split; intros F G; [apply K1|apply K2]; auto; try lia; try lra; apply le_INR in G; destruct C1, C2.
  - apply Rle_trans with (INR 9 * (1023 / 1024 * - real (miss_logodds m))); [cbn [INR]; lra|apply Rmult_le_compat_r; lra].
  - apply Rlt_le_trans with (INR 3 * (1023 / 1024 * real (hit_logodds m))); [cbn [INR]; lra|apply Rmult_le_compat_r; lra].
Qed.

(** Fewer do not always do. *)
Lemma default_needs : forall f, ln_accurate f -> exists m, lidar_default f = Ret m /\
  forall d r t o L w vs0 vs1 vs2, map_range d r t -> limit_near DEFAULT_MAX_RANGE r -> scanned d r t m o L -> length w = d ->
  Forall2 (says DEFAULT_MAX_RANGE r w) L (vs0 ++ vs1 ++ vs2) ->
  exists cb, covers_cells d r t (om_grid o) cb /\
    (Forall (fun v => v = None \/ v = Some true) vs1 -> (7 <= seen true vs1)%nat -> Forall (fun v => v = None \/ v = Some false) vs2 -> (seen false vs2 <= 8)%nat ->
     in_box cb w /\ om_occupied o (map2 Z.sub w (cmin cb)) = Ret true) /\
    (Forall (fun v => v = None \/ v = Some false) vs1 -> (14 <= seen false vs1)%nat -> Forall (fun v => v = None \/ v = Some true) vs2 -> (seen true vs2 <= 2)%nat ->
     in_box cb w /\ om_occupied o (map2 Z.sub w (cmin cb)) = Ret false).
Proof.
  intros f A. destruct (default_values f A) as (m & E & N & R). exists m. split; [exact E|]. destruct (default_bounds m N) as (MO & SG & C1 & C2 & K). cbv zeta in K.
  destruct N as (_ & _ & _ & _ & _ & T). rewrite <- R. intros d r t o L w vs0 vs1 vs2 M HM H Lw S.
  destruct (cell_says d r t m o L w _ M HM H Lw S MO SG) as (cb & C & Q). exists cb. split; [exact C|]. rewrite !fold_left_app in Q.
  pose proof (between_history m MO SG vs0 f0 (between_new m MO SG)) as B0. set (v0 := fold_left (observe m) vs0 f0) in *.
  pose proof (between_history m MO SG vs1 v0 B0) as B1. set (v1 := fold_left (observe m) vs1 v0) in *.
  split; intros F1 G1 F2 G2; (destruct Q as [IB Q]; [apply Exists_app; right; apply Exists_app; left; eapply seen_some; eapply Nat.le_trans; [|exact G1]; lia|]);
    (split; [exact IB|]); apply Q; apply le_INR in G1, G2.
  - destruct (struck m MO SG vs1 v0 C1 B0 F1) as [U _]. fold v1 in U. destruct (crossed m MO SG vs2 v1 C2 B1 F2) as [_ V]. rewrite T.
    split; [intros _|reflexivity]. destruct B0 as [_ B0]. destruct B1 as [_ B1]. destruct C1 as [P1 _], C2 as [P2 _].
    assert (X : INR 7 * (1023 / 1024 * real (hit_logodds m)) <= INR (seen true vs1) * (1023 / 1024 * real (hit_logodds m))) by (apply Rmult_le_compat_r; lra).
    assert (Y : INR (seen false vs2) * (1025 / 1024 * - real (miss_logodds m)) <= INR 8 * (1025 / 1024 * - real (miss_logodds m))) by (apply Rmult_le_compat_r; lra).
    cbn [INR] in X, Y. revert U. unfold Rmin. destruct (Rle_dec _ _); lra.
  - destruct (crossed m MO SG vs1 v0 C2 B0 F1) as [U _]. fold v1 in U. destruct (struck m MO SG vs2 v1 C1 B1 F2) as [_ V]. rewrite T.
    split; [discriminate|]. intro Z0. exfalso. destruct B0 as [_ B0]. destruct B1 as [_ B1]. destruct C1 as [P1 _], C2 as [P2 _].
    assert (X : INR 14 * (1023 / 1024 * - real (miss_logodds m)) <= INR (seen false vs1) * (1023 / 1024 * - real (miss_logodds m))) by (apply Rmult_le_compat_r; lra).
    assert (Y : INR (seen true vs2) * (1025 / 1024 * real (hit_logodds m)) <= INR 2 * (1025 / 1024 * real (hit_logodds m))) by (apply Rmult_le_compat_r; lra).
    cbn [INR] in X, Y. revert U. unfold Rmax. destruct (Rle_dec _ _); lra.
Qed.
