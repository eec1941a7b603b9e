(** The same scans in two orders. *)
From Coq Require Import ZArith List Bool Reals Lra Lia Permutation.
From Flocq Require Import Core BinarySingleNaN.
From Verif Require Import Base F32 FloatFacts RoundError Arith Geom NdArray GridMap RayCaster NoiseModel Spec SpecMap SpecNoise SpecOdds MathProofs OddsProofs BoundsProofs NoiseProofs ScanProofs ForgetProofs OrderProofs Examples ExamplesMap ExamplesNoise Viz SpecViz ExamplesLive ExamplesForget.
Open Scope R_scope.

Definition there : (point * matrix) * option bool := ((ex_zero, ex_scan1), Some true).
Definition gone : (point * matrix) * option bool := ((ex_zero, ex_scan5), Some false).
Definition first_there (i j : nat) := repeat there i ++ repeat gone j.
Definition then_there (i j : nat) := repeat gone j ++ repeat there i.
Lemma map_repeat_eq : forall {A B} (f : A -> B) x n, map f (repeat x n) = repeat (f x) n.
Proof. intros A B f x n. induction n as [|n IH]; [reflexivity|]. cbn [repeat map]. now rewrite IH. Qed.
Lemma two_orders : forall m i j, max_range m = DEFAULT_MAX_RANGE ->
  (exists o, scanned 2 tenth 100 m o (map fst (first_there i j))) /\ (exists o, scanned 2 tenth 100 m o (map fst (then_there i j))) /\
  Permutation (first_there i j) (then_there i j) /\ Forall (fun x => says (max_range m) tenth [1; 2]%Z (fst x) (snd x)) (first_there i j) /\
  seen true (map snd (first_there i j)) = i /\ seen false (map snd (first_there i j)) = j.
Proof.
  intros m i j R. destruct (ex_changed m i j R) as (C1 & _ & _). destruct (ex_changed m j i R) as (_ & C2 & _).
  unfold first_there, then_there. rewrite !map_app, !map_repeat_eq. split; [exact C1|]. split; [exact C2|]. split; [apply Permutation_app_comm|]. rewrite R. split; [|split].
  - apply Forall_app. split; apply Forall_forall; intros x Hx; apply repeat_spec in Hx; subst x; [exact ex_says1|exact ex_says5].
  - unfold seen, there, gone. cbn [snd]. rewrite filter_app, app_length. clear. induction i as [|i IH]; [|cbn [repeat filter Bool.eqb length Nat.add]; now rewrite IH].
    induction j as [|j IH]; [reflexivity|]. exact IH.
  - unfold seen, there, gone. cbn [snd]. rewrite filter_app, app_length. clear. induction i as [|i IH]; [|exact IH]. 
    induction j as [|j IH]; [reflexivity|]. cbn [repeat filter Bool.eqb length Nat.add]. cbn [repeat filter length Nat.add] in IH. now rewrite IH.
Qed.

Lemma order_matters : exists f m d r t o o' LV LV' w cb cb', ln_accurate f /\ lidar_default f = Ret m /\ map_range d r t /\ limit_near (max_range m) r /\ length w = d /\
  scanned d r t m o (map fst LV) /\ scanned d r t m o' (map fst LV') /\ Permutation LV LV' /\
  Forall (fun x => says (max_range m) r w (fst x) (snd x)) LV /\
  covers_cells d r t (om_grid o) cb /\ covers_cells d r t (om_grid o') cb' /\
  om_occupied o (map2 Z.sub w (cmin cb)) = Ret false /\ om_occupied o' (map2 Z.sub w (cmin cb')) = Ret true.
Proof.
  destruct (default_values near_ln near_ln_accurate) as (m & Em & _ & MR).
  destruct (default_forgets near_ln near_ln_accurate) as (m' & Em' & K). rewrite Em in Em'. injection Em' as <-.
  destruct (two_orders m 3 9 MR) as ((o & S1) & (o' & S2) & P & F & _). rewrite MR in F. rewrite <- MR in K.
  assert (F' : Forall (fun x => says DEFAULT_MAX_RANGE tenth [1; 2]%Z (fst x) (snd x)) (then_there 3 9)) by (rewrite Forall_forall in *; intros x Hx; apply F; now apply (Permutation_in x (Permutation_sym P))).
  rewrite MR in K.
  destruct (K 2%nat tenth 100%Z o _ [1; 2]%Z (repeat (Some true) 3) (repeat (Some false) 9) ex_range100 ex_limit60 S1 eq_refl (says_pairs _ _ _ _ F)) as (cb & C & Q & _).
  destruct (K 2%nat tenth 100%Z o' _ [1; 2]%Z (repeat (Some false) 9) (repeat (Some true) 3) ex_range100 ex_limit60 S2 eq_refl (says_pairs _ _ _ _ F')) as (cb' & C' & _ & Q').
  destruct Q as [_ Q]; [apply Forall_forall; intros x Hx; apply repeat_spec in Hx; auto|apply Nat.le_refl|].
  destruct Q' as [_ Q']; [apply Forall_forall; intros x Hx; apply repeat_spec in Hx; auto|apply Nat.le_refl|].
  exists near_ln, m, 2%nat, tenth, 100%Z, o, o', (first_there 3 9), (then_there 3 9), [1; 2]%Z, cb, cb'. rewrite MR.
  exact (conj near_ln_accurate (conj Em (conj ex_range100 (conj ex_limit60 (conj eq_refl (conj S1 (conj S2 (conj P (conj F (conj C (conj C' (conj Q Q')))))))))))).
Qed.

Lemma ex_order : unlimited ex_lidar 2 3 /\ slack ex_lidar (2 + 3) < Rabs (added_up ex_lidar 2 3 - real (occupied_threshold_logodds ex_lidar)).
Proof.
  assert (H : real (hit_logodds ex_lidar) = 14260634 / 16777216) by (unfold real, ex_lidar; cbn [hit_logodds]; closed_float (f32_lit 85 100); rewrite V; lra).
  assert (M : real (miss_logodds ex_lidar) = - (13421773 / 33554432)) by (unfold real, ex_lidar; cbn [miss_logodds]; closed_float (f32_lit (-4) 10); rewrite V; lra).
  assert (A : real (min_logodds ex_lidar) = -2) by (unfold real, ex_lidar; cbn [min_logodds]; closed_float (f32_lit (-2) 1); rewrite V; lra).
  assert (B : real (max_logodds ex_lidar) = 7 / 2) by (unfold real, ex_lidar; cbn [max_logodds]; closed_float (f32_lit 35 10); rewrite V; lra).
  assert (T : real (occupied_threshold_logodds ex_lidar) = 0) by reflexivity.
  assert (X : Rmax (Rabs (-2)) (Rabs (7 / 2)) <= 4) by (apply Rmax_lub; apply Rabs_le; lra).
  assert (S : slack ex_lidar (2 + 3) <= / 100).
  { unfold slack. rewrite A, B. cbn [Nat.add INR]. change (bpow radix2 (-24)) with (/ 16777216). lra. }
  unfold unlimited, added_up. rewrite H, M, A, B, T. cbn [INR]. split; [lra|]. eapply Rlt_le_trans; [|apply Rle_abs]. lra.
Qed.
Lemma default_order_example : exists m o, lidar_default near_ln = Ret m /\ scanned 2 tenth 100 m o (map fst (then_there 2 4)) /\
  Forall2 (says DEFAULT_MAX_RANGE tenth [1; 2]%Z) (map fst (then_there 2 4)) (map snd (then_there 2 4)) /\
  seen true (map snd (then_there 2 4)) = 2%nat /\ seen false (map snd (then_there 2 4)) = 4%nat.
Proof.
  destruct (default_values near_ln near_ln_accurate) as (m & Em & _ & MR). destruct (two_orders m 2 4 MR) as (_ & (o & S2) & P & F & _). exists m, o.
  split; [exact Em|]. split; [exact S2|]. split; [|split; reflexivity]. apply says_pairs. rewrite MR in F. rewrite Forall_forall in *. intros x Hx. apply F. now apply (Permutation_in x (Permutation_sym P)).
Qed.
