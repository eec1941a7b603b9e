(** The order of scans. *)
From Coq Require Import ZArith List Bool Reals Lra Lia Psatz Permutation.
From Flocq Require Import Core BinarySingleNaN.
From Verif Require Import Base F32 FloatFacts RoundError Arith Geom NdArray GridMap RayCaster NoiseModel Spec SpecMap SpecNoise SpecOdds MathProofs OddsProofs BoundsProofs NoiseProofs ScanProofs ForgetProofs Examples.
Open Scope R_scope.

Definition worth (m : lidar) (x : option bool) : R := match x with Some true => real (hit_logodds m) | Some false => real (miss_logodds m) | None => 0 end.
Fixpoint total (m : lidar) (vs : list (option bool)) : R := match vs with [] => 0 | x :: vs' => worth m x + total m vs' end.
Definition obs (vs : list (option bool)) : nat := (seen true vs + seen false vs)%nat.
Definition unit_of (m : lidar) : R := bpow radix2 (-24) * Rmax (Rabs (real (min_logodds m))) (Rabs (real (max_logodds m))).
Lemma total_seen : forall m vs, total m vs = added_up m (seen true vs) (seen false vs).
Proof.
  intros m vs. unfold added_up. induction vs as [|[[|]|] vs IH]; cbn [total worth].
  - cbn. lra.
  - change (seen true (Some true :: vs)) with (S (seen true vs)). change (seen false (Some true :: vs)) with (seen false vs). rewrite IH, S_INR. lra.
  - change (seen true (Some false :: vs)) with (seen true vs). change (seen false (Some false :: vs)) with (S (seen false vs)). rewrite IH, S_INR. lra.
  - change (seen true (None :: vs)) with (seen true vs). change (seen false (None :: vs)) with (seen false vs). rewrite IH. lra.
Qed.
Lemma seen_app : forall h a b, seen h (a ++ b) = (seen h a + seen h b)%nat.
Proof. intros h a b. unfold seen. now rewrite filter_app, app_length. Qed.

Section Model.
Context (m : lidar) (MO : moderate_model m) (SG : signs_ok m).
Lemma unit_pos : 0 <= unit_of m.
Proof. unfold unit_of. apply Rmult_le_pos; [apply bpow_ge_0|]. eapply Rle_trans; [apply Rabs_pos|apply Rmax_l]. Qed.

(** One rounded addition between the limits. *)
Lemma add_between : forall v x : f32, finite v -> finite x -> real (min_logodds m) <= real v + real x <= real (max_logodds m) ->
  finite (fadd v x) /\ Rabs (real (fadd v x) - (real v + real x)) <= unit_of m /\ real (min_logodds m) <= real (fadd v x) <= real (max_logodds m).
Proof.
  intros v x Fv Fx H. destruct (mod_min m MO) as [Fn Bn], (mod_max m MO) as [Fm Bm].
  assert (A : Rabs (real v + real x) <= Rmax (Rabs (real (min_logodds m))) (Rabs (real (max_logodds m)))).
  { apply Rabs_le. pose proof (Rmax_l (Rabs (real (min_logodds m))) (Rabs (real (max_logodds m)))). pose proof (Rmax_r (Rabs (real (min_logodds m))) (Rabs (real (max_logodds m)))).
    pose proof (Rle_abs (real (max_logodds m))). pose proof (Rle_abs (- real (min_logodds m))) as Q. rewrite Rabs_Ropp in Q. lra. }
  unfold finite, real in *. destruct (fadd_fin v x Fv Fx) as [F E].
  { apply rnd_abs_lt_128. eapply Rle_trans; [exact A|]. apply Rle_trans with (bp 100); [now apply Rmax_lub|apply bpow_le; lia]. }
  split; [exact F|]. rewrite E. split.
  - eapply Rle_trans; [apply rnd_add_rel|]. unfold unit_of, real. rewrite u32_bp. apply Rmult_le_compat_l; [unfold u32; lra|exact A].
  - split; [apply round_ge_generic|apply round_le_generic]; try apply generic_format_B2R; try lra; try (apply (fexp_correct 24 128); reflexivity); apply valid_rnd_N.
Qed.

Lemma sums_close : forall vs v a e M, between m v -> Rabs (real v - a) <= e -> e + INR (obs vs) * unit_of m <= M ->
  (forall pre post, vs = pre ++ post -> real (min_logodds m) + M <= a + total m pre <= real (max_logodds m) - M) ->
  Rabs (real (fold_left (observe m) vs v) - (a + total m vs)) <= e + INR (obs vs) * unit_of m.
Proof.
  pose proof unit_pos as U. induction vs as [|x vs IH]; intros v a e M B H HM P.
  - cbn [fold_left total obs seen filter length Nat.add INR]. replace (a + 0) with a by lra. lra.
  - assert (Pos : 0 <= INR (obs vs) * unit_of m) by (apply Rmult_le_pos; [apply pos_INR|exact U]).
    pose proof (P [x] vs eq_refl) as P1. cbn [total] in P1. rewrite Rplus_0_r in P1.
    assert (P' : forall pre post, vs = pre ++ post -> real (min_logodds m) + M <= (a + worth m x) + total m pre <= real (max_logodds m) - M).
    { intros pre post E. specialize (P (x :: pre) post). rewrite E in P. specialize (P eq_refl). cbn [total] in P. lra. }
    pose proof (between_evidence m MO SG v x B) as B'. cbn [fold_left total]. rewrite <- Rplus_assoc. destruct B as [Fv Bv].
    destruct x as [[|]|].
    + assert (O : obs (Some true :: vs) = S (obs vs)) by reflexivity. rewrite O, S_INR in *. cbn [worth] in *. apply Rabs_le_inv in H.
      destruct (add_between v (hit_logodds m) Fv (proj1 (mod_hit m MO))) as (Fa & Ea & Ba); [lra|].
      assert (E : real (observe m v (Some true)) = real (fadd v (hit_logodds m))).
      { cbn [observe evidence]. destruct (fmin_real (fadd v (hit_logodds m)) (max_logodds m) Fa (proj1 (mod_max m MO))) as [_ ->]. apply Rmin_left. apply Ba. }
      apply Rabs_le_inv in Ea. replace (e + (INR (obs vs) + 1) * unit_of m) with ((e + unit_of m) + INR (obs vs) * unit_of m) by ring.
      apply (IH _ _ _ M); [exact B'|rewrite E; apply Rabs_le; lra|lra|exact P'].
    + assert (O : obs (Some false :: vs) = S (obs vs)) by (unfold obs; change (seen true (Some false :: vs)) with (seen true vs); change (seen false (Some false :: vs)) with (S (seen false vs)); lia). rewrite O, S_INR in *. cbn [worth] in *. apply Rabs_le_inv in H.
      destruct (add_between v (miss_logodds m) Fv (proj1 (mod_miss m MO))) as (Fa & Ea & Ba); [lra|].
      assert (E : real (observe m v (Some false)) = real (fadd v (miss_logodds m))).
      { cbn [observe evidence]. destruct (fmax_real (fadd v (miss_logodds m)) (min_logodds m) Fa (proj1 (mod_min m MO))) as [_ ->]. apply Rmax_left. apply Ba. }
      apply Rabs_le_inv in Ea. replace (e + (INR (obs vs) + 1) * unit_of m) with ((e + unit_of m) + INR (obs vs) * unit_of m) by ring.
      apply (IH _ _ _ M); [exact B'|rewrite E; apply Rabs_le; lra|lra|exact P'].
    + change (obs (None :: vs)) with (obs vs) in *. cbn [worth observe] in *. apply (IH _ _ _ M); [exact B'|now rewrite Rplus_0_r|exact HM|exact P'].
Qed.

Lemma sums_any_order : forall vs, unlimited m (seen true vs) (seen false vs) ->
  Rabs (real (fold_left (observe m) vs f0) - added_up m (seen true vs) (seen false vs)) <= slack m (seen true vs + seen false vs).
Proof.
  intros vs [H1 H2]. rewrite <- total_seen. unfold slack in *. fold (unit_of m) in *. fold (obs vs) in *.
  rewrite <- (Rplus_0_l (INR (obs vs) * unit_of m)). rewrite <- (Rplus_0_l (total m vs)).
  assert (Ph : 0 <= real (hit_logodds m)) by (apply (fle_real f0 _ eq_refl (proj1 (mod_hit m MO))); apply SG).
  assert (Pm : real (miss_logodds m) <= 0) by (apply (fle_real _ f0 (proj1 (mod_miss m MO)) eq_refl); apply SG).
  apply (sums_close vs f0 0 0 (INR (obs vs) * unit_of m)); [now apply between_new|change (real f0) with 0; rewrite Rminus_0_r, Rabs_R0; lra|lra|].
  intros pre post E. rewrite total_seen. unfold added_up in *. rewrite E, !seen_app, !plus_INR in *. cbn [INR] in *.
  pose proof (pos_INR (seen true pre)) as Q1. pose proof (pos_INR (seen false pre)) as Q2. pose proof (pos_INR (seen true post)) as Q3. pose proof (pos_INR (seen false post)) as Q4.
  assert (0 <= INR (seen true pre) * real (hit_logodds m)) by (apply Rmult_le_pos; lra).
  assert (0 <= INR (seen true post) * real (hit_logodds m)) by (apply Rmult_le_pos; lra).
  assert (0 <= INR (seen false pre) * - real (miss_logodds m)) by (apply Rmult_le_pos; lra).
  assert (0 <= INR (seen false post) * - real (miss_logodds m)) by (apply Rmult_le_pos; lra).
  lra.
Qed.
End Model.

(** From histories to maps. *)
Lemma order_value : forall d r t m o L w vs, map_range d r t -> limit_near (max_range m) r -> signs_ok m -> moderate_model m ->
  scanned d r t m o L -> length w = d -> Forall2 (says (max_range m) r w) L vs -> let a := seen true vs in let b := seen false vs in unlimited m a b -> (0 < a + b)%nat ->
  exists cb v, covers_cells d r t (om_grid o) cb /\ in_box cb w /\ gm_get (om_grid o) (map2 Z.sub w (cmin cb)) = Ret v /\ finite v /\
    Rabs (real v - added_up m a b) <= slack m (a + b).
Proof.
  intros d r t m o L w vs M HM SG MO H Lw S a b UL N. destruct (scans_values d r t m o L w vs M HM H Lw S) as (cb & C & [V _] & I).
  assert (X : Exists (fun v => v <> None) vs) by (destruct (Nat.eq_dec a 0) as [E|E]; [apply (seen_some false)|apply (seen_some true)]; unfold a, b in *; lia).
  exists cb, (fold_left (observe m) vs f0). split; [exact C|]. split; [exact (I X)|]. split; [exact (V (I X))|].
  split; [apply (between_history m MO SG vs f0 (between_new m MO SG))|now apply sums_any_order].
Qed.
Lemma says_pairs : forall m r w (LV : list ((point * matrix) * option bool)), Forall (fun x => says m r w (fst x) (snd x)) LV -> Forall2 (says m r w) (map fst LV) (map snd LV).
Proof. intros m r w LV F. induction F; constructor; assumption. Qed.
Lemma seen_permutation : forall h a b, Permutation a b -> seen h a = seen h b.
Proof.
  intros h a b P. induction P as [|x a b P IH|x y a|a b c P1 IH1 P2 IH2]; [reflexivity| | |congruence]; unfold seen in *; cbn [filter].
  - destruct (match x with Some h' => _ | None => _ end); cbn [length]; congruence.
  - destruct x as [[|]|], y as [[|]|], h; reflexivity.
Qed.
Lemma any_order : forall d r t m o o' LV LV' w, map_range d r t -> limit_near (max_range m) r -> signs_ok m -> moderate_model m ->
  scanned d r t m o (map fst LV) -> scanned d r t m o' (map fst LV') -> Permutation LV LV' -> length w = d ->
  Forall (fun x => says (max_range m) r w (fst x) (snd x)) LV -> let a := seen true (map snd LV) in let b := seen false (map snd LV) in unlimited m a b -> (0 < a + b)%nat ->
  exists cb cb' v v', covers_cells d r t (om_grid o) cb /\ covers_cells d r t (om_grid o') cb' /\
    gm_get (om_grid o) (map2 Z.sub w (cmin cb)) = Ret v /\ gm_get (om_grid o') (map2 Z.sub w (cmin cb')) = Ret v' /\
    finite v /\ finite v' /\ Rabs (real v - real v') <= 2 * slack m (a + b) /\
    (slack m (a + b) < Rabs (added_up m a b - real (occupied_threshold_logodds m)) ->
     let s := if Rlt_dec (real (occupied_threshold_logodds m)) (added_up m a b) then true else false in
     om_occupied o (map2 Z.sub w (cmin cb)) = Ret s /\ om_occupied o' (map2 Z.sub w (cmin cb')) = Ret s).
Proof.
  intros d r t m o o' LV LV' w M HM SG MO H H' P Lw F a b UL N.
  assert (F' : Forall (fun x => says (max_range m) r w (fst x) (snd x)) LV') by (rewrite Forall_forall in *; intros x Hx; apply F; now apply (Permutation_in x (Permutation_sym P))).
  assert (Ea : seen true (map snd LV') = a) by (apply seen_permutation, Permutation_map, Permutation_sym, P).
  assert (Eb : seen false (map snd LV') = b) by (apply seen_permutation, Permutation_map, Permutation_sym, P).
  pose proof (order_value d r t m o _ w _ M HM SG MO H Lw (says_pairs _ _ _ _ F)) as K. fold a b in K. destruct (K UL N) as (cb & v & C & _ & G & Fv & E).
  pose proof (order_value d r t m o' _ w _ M HM SG MO H' Lw (says_pairs _ _ _ _ F')) as K'. rewrite Ea, Eb in K'. destruct (K' UL N) as (cb' & v' & C' & _ & G' & Fv' & E').
  exists cb, cb', v, v'. split; [exact C|]. split; [exact C'|]. split; [exact G|]. split; [exact G'|]. split; [exact Fv|]. split; [exact Fv'|].
  apply Rabs_le_inv in E. apply Rabs_le_inv in E'. split; [apply Rabs_le; lra|]. intros T s.
  assert (Q : forall x : f32, finite x -> - slack m (a + b) <= real x - added_up m a b <= slack m (a + b) -> fltb (occupied_threshold_logodds m) x = s).
  { intros x Fx B. unfold s. pose proof (flt_real _ _ (proj1 (mod_thr m MO)) Fx) as Q. revert T. unfold Rabs. destruct (Rcase_abs _) as [R|R]; intro T; destruct (Rlt_dec _ _) as [R'|R']; try lra.
    - destruct (fltb _ _); [|reflexivity]. destruct Q as [Q _]. specialize (Q eq_refl). lra.
    - apply Q. lra. }
  destruct (scanned_facts _ _ _ _ _ _ H) as [Em _]. destruct (scanned_facts _ _ _ _ _ _ H') as [Em' _].
  unfold om_occupied, occupied. rewrite Em, Em', G, G'. cbn [obind]. rewrite (Q v Fv E), (Q v' Fv' E'). auto.
Qed.

(** ** The default model *)
Lemma default_room : forall m, default_numbers m -> let h := real (hit_logodds m) in let s := - real (miss_logodds m) in
  / 2 <= h /\ / 4 <= s /\ 2 * s + / 100 <= h /\ h + / 10 <= 3 * s /\ 4 * h + / 100 <= real (max_logodds m) <= 64 /\ 4 * s + / 100 <= - real (min_logodds m) <= 64.
Proof.
  intros m (F & Hh & Hs & Hn & Hx & Ht). cbv zeta.
  pose proof (ln_ge_1 (233 / 100) ltac:(lra)) as L1. pose proof (ln_ge_1 (149 / 100) ltac:(lra)) as L3.
  pose proof (ln_le_1 (740 / 100) ltac:(lra)) as L6. pose proof (ln_le_1 (336 / 10) ltac:(lra)) as L8.
  pose proof (ln_margin (334 / 10) ((234 / 100) ^ 4) 1 (1 / 10) ltac:(lra) ltac:(apply pow_lt; lra) ltac:(lra) ltac:(cbn [pow]; lra)) as M1.
  pose proof (ln_margin (738 / 100) ((151 / 100) ^ 4) 1 (1 / 4) ltac:(lra) ltac:(apply pow_lt; lra) ltac:(lra) ltac:(cbn [pow]; lra)) as M2.
  pose proof (ln_margin (233 / 100) ((151 / 100) ^ 2) 1 (2 / 100) ltac:(lra) ltac:(apply pow_lt; lra) ltac:(lra) ltac:(cbn [pow]; lra)) as M3.
  pose proof (ln_margin (149 / 100) (234 / 100) 3 (1 / 4) ltac:(lra) ltac:(lra) ltac:(lra) ltac:(cbn [pow]; lra)) as M4.
  rewrite ln_pow in M1, M2, M3 by lra. cbn [INR] in *. lra.
Qed.
Lemma default_slack : forall m n, default_numbers m -> (n <= 8)%nat -> 0 <= slack m n <= / 1000.
Proof.
  intros m n N Hn. destruct (default_room m N) as (A & B & C & D & E1 & E2). unfold slack. change (bpow radix2 (-24)) with (/ 16777216).
  assert (X : 0 <= Rmax (Rabs (real (min_logodds m))) (Rabs (real (max_logodds m))) <= 64).
  { split; [eapply Rle_trans; [apply Rabs_pos|apply Rmax_l]|]. apply Rmax_lub; apply Rabs_le; lra. }
  pose proof (pos_INR n) as P. apply le_INR in Hn. cbn [INR] in Hn. split; [apply Rmult_le_pos; lra|].
  apply Rle_trans with (8 * (/ 16777216 * 64)); [|lra]. apply Rmult_le_compat; lra.
Qed.
Lemma default_order : forall f, ln_accurate f -> exists m, lidar_default f = Ret m /\
  forall d r t o L w vs, map_range d r t -> limit_near DEFAULT_MAX_RANGE r -> scanned d r t m o L -> length w = d -> Forall2 (says DEFAULT_MAX_RANGE r w) L vs ->
  let a := seen true vs in let b := seen false vs in (a <= 4)%nat -> (b <= 4)%nat -> (0 < a + b)%nat ->
  exists cb, covers_cells d r t (om_grid o) cb /\ in_box cb w /\ om_occupied o (map2 Z.sub w (cmin cb)) = Ret (b <=? 2 * a)%nat.
Proof.
  intros f A. destruct (default_values f A) as (m & E & N & R). exists m. split; [exact E|]. destruct (default_bounds m N) as (MO & SG & _).
  pose proof (default_room m N) as K. cbv zeta in K. rewrite <- R. intros d r t o L w vs M HM H Lw S a b Ha Hb Hn.
  destruct (default_slack m (a + b) N ltac:(lia)) as [S0 S1]. destruct N as (_ & _ & _ & _ & _ & T).
  assert (UL : unlimited m a b).
  { pose proof (pos_INR a) as P1. pose proof (pos_INR b) as P2. apply le_INR in Ha. apply le_INR in Hb. cbn [INR] in Ha, Hb. unfold unlimited, added_up. cbn [INR].
    assert (INR a * real (hit_logodds m) <= 4 * real (hit_logodds m)) by (apply Rmult_le_compat_r; lra).
    assert (INR b * - real (miss_logodds m) <= 4 * - real (miss_logodds m)) by (apply Rmult_le_compat_r; lra). lra. }
  destruct (cell_says d r t m o L w vs M HM H Lw S MO SG) as (cb & C & Q). exists cb. split; [exact C|].
  destruct Q as [IB Q]. { destruct (Nat.eq_dec a 0) as [X|X]; [apply (seen_some false)|apply (seen_some true)]; unfold a, b in *; lia. }
  split; [exact IB|]. apply Q. rewrite T. pose proof (sums_any_order m MO SG vs UL) as W. fold a b in W. apply Rabs_le_inv in W. set (v := real (fold_left (observe m) vs f0)) in *. clearbody v a b.
  unfold added_up in W. clear - K S0 S1 W Ha Hb Hn.
  assert (G : if (b <=? 2 * a)%nat then 0 < v else v <= 0).
  { set (h := real (hit_logodds m)) in *. set (s := real (miss_logodds m)) in *. set (k := slack m (a + b)) in *. clearbody h s k.
    destruct a as [|[|[|[|[|a]]]]]; try lia; destruct b as [|[|[|[|[|b]]]]]; try lia; cbn [Nat.leb Nat.mul Nat.add INR] in *; lra. }
  destruct (b <=? 2 * a)%nat; [tauto|]. split; [discriminate|]. intro X. lra.
Qed.
