(** C97: maps of a world with walls. *)
From Coq Require Import ZArith List Bool Reals Lra Lia Classical Permutation.
From Flocq Require Import Core BinarySingleNaN.
From Verif Require Import Base F32 FloatFacts Arith Geom NdArray GridMap RayCaster NoiseModel Spec SpecMap SpecNoise SpecOdds SpecBack SpecMeet SpecNear SpecWorld SpecWall
  BoundsProofs NdProofs NoiseProofs ScanProofs ForgetProofs WorldMapProofs.
Open Scope R_scope.

Definition only (h : bool) (vs : list (option bool)) : Prop := Forall (fun v => v = None \/ v = Some h) vs.

Lemma sees_verdict : forall d M r wall s w v, sees d M r wall s -> verdict d M r w s v -> v = None \/ (v = Some true /\ wall w) \/ (v = Some false /\ ~ wall w).
Proof.
  intros d M r wall s w [[|]|] S V; [| |now left]; right; [left|right]; (split; [reflexivity|]).
  - destruct V as (q & Hq & -> & A). exact (proj2 (S q Hq) A).
  - destruct V as ((q & Hq & A) & _). exact (proj1 (S q Hq) w A).
Qed.
Lemma sees_only : forall d M r wall w L vs, Forall (sees d M r wall) L -> Forall2 (verdict d M r w) L vs -> (wall w -> only true vs) /\ (~ wall w -> only false vs).
Proof.
  intros d M r wall w L vs S V. induction V as [|s v L vs V0 V IH]; [split; constructor|].
  inversion_clear S as [|? ? S0 S']. destruct (IH S') as [I1 I2].
  destruct (sees_verdict _ _ _ _ _ _ _ S0 V0) as [E|[[E W]|[E W]]]; subst v; unfold only in *; (split; intro K; constructor; auto; contradiction).
Qed.

Lemma after_shift : forall m h n v, Nat.iter n (fun x => evidence m x h) (evidence m v h) = evidence m (Nat.iter n (fun x => evidence m x h) v) h.
Proof. intros m h n v. induction n as [|n IH]; [reflexivity|]. exact (f_equal (fun x => evidence m x h) IH). Qed.
Lemma only_iter : forall m h vs v, only h vs -> fold_left (observe m) vs v = Nat.iter (seen h vs) (fun x => evidence m x h) v.
Proof.
  intros m h vs. induction vs as [|x vs IH]; intros v O; [reflexivity|]. inversion_clear O as [|? ? [E|E] O']; subst x; cbn [fold_left observe].
  - exact (IH v O').
  - rewrite (IH _ O'). unfold seen. cbn [filter]. rewrite eqb_reflx. exact (after_shift m h _ v).
Qed.
Lemma only_after : forall m h vs, only h vs -> fold_left (observe m) vs f0 = after m h (seen h vs).
Proof. intros m h vs O. rewrite (only_iter m h vs f0 O). induction (seen h vs) as [|n IH]; [reflexivity|]. cbn [after]. rewrite <- IH. reflexivity. Qed.

Lemma walled_values : forall d r t m o L wall, map_range d r t -> fltb f0 (max_range m) = true -> finite (max_range m) -> real (max_range m) <= 1048576 * real r ->
  recorded d r t m o L -> Forall (sees d (real (max_range m)) (real r) wall) L -> exists cb, covers_cells d r t (om_grid o) cb /\
    forall w vs, length w = d -> Forall2 (verdict d (real (max_range m)) (real r) w) L vs ->
      (wall w -> world_value (om_grid o) cb f0 w (after m true (seen true vs))) /\ (~ wall w -> world_value (om_grid o) cb f0 w (after m false (seen false vs))) /\
      (Exists (fun v => v <> None) vs -> in_box cb w).
Proof.
  intros d r t m o L wall MR Pm Fm Bm H S. destruct (recorded_values d r t m o L MR Pm Fm Bm H) as (cb & C & V). exists cb. split; [exact C|].
  intros w vs Lw Vs. destruct (V w vs Lw Vs) as [W I]. destruct (sees_only _ _ _ _ _ _ _ S Vs) as [O1 O2].
  split; [intro K; rewrite <- only_after by auto; exact W|]. split; [intro K; rewrite <- only_after by auto; exact W|exact I].
Qed.

Lemma seen_perm : forall h vs vs', Permutation vs vs' -> seen h vs = seen h vs'.
Proof.
  intros h vs vs' P. unfold seen. induction P as [|x l l' P IH|x y l|l l' l'' P IH P' IH']; cbn [filter]; auto.
  - destruct (match x with Some b => eqb b h | None => false end); cbn [length]; auto.
  - destruct (match x with Some b => eqb b h | None => false end), (match y with Some b => eqb b h | None => false end); reflexivity.
  - congruence.
Qed.
Lemma verdicts_perm : forall d M r w L L' vs, Permutation L L' -> Forall2 (verdict d M r w) L vs -> exists vs', Permutation vs vs' /\ Forall2 (verdict d M r w) L' vs'.
Proof. intros d M r w L L' vs P V. destruct (Permutation_Forall2 P V) as (vs' & P' & V'). exists vs'. split; [exact P'|exact V']. Qed.

Lemma walled_order : forall d r t t' m o o' L L' wall, map_range d r t -> map_range d r t' -> fltb f0 (max_range m) = true -> finite (max_range m) -> real (max_range m) <= 1048576 * real r ->
  recorded d r t m o L -> recorded d r t' m o' L' -> Permutation L L' -> Forall (sees d (real (max_range m)) (real r) wall) L ->
  exists cb cb', covers_cells d r t (om_grid o) cb /\ covers_cells d r t' (om_grid o') cb' /\
    forall w, length w = d -> exists v, world_value (om_grid o) cb f0 w v /\ world_value (om_grid o') cb' f0 w v.
Proof.
  intros d r t t' m o o' L L' wall MR MR' Pm Fm Bm H H' P S.
  destruct (walled_values d r t m o L wall MR Pm Fm Bm H S) as (cb & C & V).
  destruct (walled_values d r t' m o' L' wall MR' Pm Fm Bm H' (Permutation_Forall P S)) as (cb' & C' & V').
  exists cb, cb'. split; [exact C|]. split; [exact C'|]. intros w Lw.
  destruct (verdicts_exist d (real (max_range m)) (real r) w L) as [vs Vs]. destruct (verdicts_perm _ _ _ _ _ _ _ P Vs) as (vs' & Q & Vs').
  destruct (V w vs Lw Vs) as (A1 & A2 & _). destruct (V' w vs' Lw Vs') as (B1 & B2 & _). rewrite <- (seen_perm true _ _ Q) in B1. rewrite <- (seen_perm false _ _ Q) in B2.
  destruct (classic (wall w)) as [K|K]; eexists; (split; [now auto|now auto]).
Qed.

Lemma some_hit : forall d M r w L vs, Forall2 (verdict d M r w) L vs -> ((exists s, In s L /\ scan_hits d M r s w) <-> In (Some true) vs).
Proof.
  intros d M r w L vs V. induction V as [|s v L vs V0 V IH]; [split; [intros (s & [] & _)|intros []]|]. split.
  - intros (s' & [<-|Hs] & A); [left; destruct v as [[|]|]; cbn in V0; tauto|right]. apply IH. now exists s'.
  - intros [E|K]; [subst v; exists s; split; [now left|exact V0]|]. apply IH in K. destruct K as (s' & Hs & A). exists s'. split; [now right|exact A].
Qed.

Lemma walled_occupied : forall d r t m o L wall, map_range d r t -> fltb f0 (max_range m) = true -> finite (max_range m) -> real (max_range m) <= 1048576 * real r ->
  signs_ok m -> fle f0 (occupied_threshold_logodds m) -> fltb (occupied_threshold_logodds m) (evidence m f0 true) = true ->
  recorded d r t m o L -> Forall (sees d (real (max_range m)) (real r) wall) L -> exists cb, covers_cells d r t (om_grid o) cb /\
    forall w, length w = d ->
      ((exists s, In s L /\ scan_hits d (real (max_range m)) (real r) s w) -> wall w /\ in_box cb w) /\
      (in_box cb w -> exists b, om_occupied o (map2 Z.sub w (cmin cb)) = Ret b /\ (b = true <-> exists s, In s L /\ scan_hits d (real (max_range m)) (real r) s w)).
Proof.
  intros d r t m o L wall MR Pm Fm Bm (S1 & S2 & S3 & S4) T1 T2 H S. destruct (recorded_values d r t m o L MR Pm Fm Bm H) as (cb & C & V). exists cb. split; [exact C|].
  intros w Lw. destruct (verdicts_exist d (real (max_range m)) (real r) w L) as [vs Vs]. destruct (V w vs Lw Vs) as [[W _] I].
  destruct (sees_only _ _ _ _ _ _ _ S Vs) as [O1 O2]. pose proof (some_hit _ _ _ _ _ _ Vs) as SH. destruct (recorded_facts _ _ _ _ _ _ H) as [Em _].
  split.
  - intro K. split.
    + destruct K as (s & Hs & q & Hq & -> & A). rewrite Forall_forall in S. exact (proj2 (S s Hs q Hq) A).
    + apply I. apply Exists_exists. exists (Some true). split; [now apply SH|discriminate].
  - intro B. unfold om_occupied, occupied. rewrite Em. match goal with |- exists b, obind ?x _ = _ /\ _ => replace x with (Ret (fold_left (observe m) vs f0)) by (symmetry; exact (W B)) end. cbn [obind].
    eexists. split; [reflexivity|]. rewrite SH. split.
    + intro K. destruct (classic (In (Some true) vs)) as [X|X]; [exact X|exfalso].
      assert (O : only false vs).
      { destruct (classic (wall w)) as [Y|Y]; [|exact (O2 Y)]. specialize (O1 Y). unfold only in *. rewrite Forall_forall in *. intros v Hv. destruct (O1 v Hv) as [->| ->]; [now left|contradiction]. }
      destruct (static_misses m vs f0 S2 S3 O) as [Q _]. pose proof (flt_fle_trans _ _ _ K (fle_trans' _ _ _ Q T1)) as Z0. apply fltb_iff in Z0. destruct Z0 as (_ & _ & Z0). lra.
    + intro X. assert (Y : wall w). { apply SH in X. destruct X as (s & Hs & q & Hq & -> & A). rewrite Forall_forall in S. exact (proj2 (S s Hs q Hq) A). }
      apply (flt_fle_trans _ _ _ T2). apply static_first; [exact S1|exact S4|exact (O1 Y)|]. apply Exists_exists. exists (Some true). split; [exact X|discriminate].
Qed.

(** Scans before the last ones may have been taken in another world. *)
Lemma recorded_says : forall d r t m o L, map_range d r t -> fltb f0 (max_range m) = true -> finite (max_range m) -> real (max_range m) <= 1048576 * real r ->
  recorded d r t m o L -> moderate_model m -> signs_ok m -> exists cb, covers_cells d r t (om_grid o) cb /\
    forall w vs, length w = d -> Forall2 (verdict d (real (max_range m)) (real r) w) L vs -> Exists (fun v => v <> None) vs ->
    in_box cb w /\ forall b, (b = true <-> real (occupied_threshold_logodds m) < real (fold_left (observe m) vs f0)) -> om_occupied o (map2 Z.sub w (cmin cb)) = Ret b.
Proof.
  intros d r t m o L M Pm Fm Bm H MO SG. destruct (recorded_values d r t m o L M Pm Fm Bm H) as (cb & C & V).
  exists cb. split; [exact C|]. intros w vs Lw S X. destruct (V w vs Lw S) as [[W _] I]. split; [exact (I X)|]. intros b Hb.
  destruct (recorded_facts _ _ _ _ _ _ H) as [Em _]. unfold om_occupied, occupied. rewrite Em.
  match goal with |- obind ?x _ = _ => replace x with (Ret (fold_left (observe m) vs f0)) by (symmetry; exact (W (I X))) end. cbn [obind].
  pose proof (between_history m MO SG vs f0 (between_new m MO SG)) as [F _].
  pose proof (flt_real _ _ (proj1 (mod_thr m MO)) F) as Q. f_equal. clear Pm. destruct b, (fltb _ _) eqn:E; try reflexivity.
  - destruct (proj2 Q (proj1 Hb eq_refl)). reflexivity.
  - symmetry. apply Hb, Q. reflexivity.
Qed.

Lemma walled_changed : forall d r t m o L0 L1 wall, map_range d r t -> fltb f0 (max_range m) = true -> finite (max_range m) -> real (max_range m) <= 1048576 * real r ->
  signs_ok m -> moderate_model m -> recorded d r t m o (L0 ++ L1) -> Forall (sees d (real (max_range m)) (real r) wall) L1 ->
  let thr := real (occupied_threshold_logodds m) in
  exists cb, covers_cells d r t (om_grid o) cb /\ forall w vs, length w = d -> Forall2 (verdict d (real (max_range m)) (real r) w) L1 vs ->
    (~ wall w -> (1 <= seen false vs)%nat -> counts m (- real (miss_logodds m)) -> real (min_logodds m) <= thr ->
     real (max_logodds m) - thr <= INR (seen false vs) * (1023 / 1024 * - real (miss_logodds m)) -> in_box cb w /\ om_occupied o (map2 Z.sub w (cmin cb)) = Ret false) /\
    (wall w -> (1 <= seen true vs)%nat -> counts m (real (hit_logodds m)) -> thr < real (max_logodds m) ->
     thr - real (min_logodds m) < INR (seen true vs) * (1023 / 1024 * real (hit_logodds m)) -> in_box cb w /\ om_occupied o (map2 Z.sub w (cmin cb)) = Ret true).
Proof.
  intros d r t m o L0 L1 wall M Pm Fm Bm SG MO H S. cbv zeta.
  destruct (recorded_says d r t m o _ M Pm Fm Bm H MO SG) as (cb & C & K). exists cb. split; [exact C|]. intros w vs1 Lw V1.
  destruct (verdicts_exist d (real (max_range m)) (real r) w L0) as [vs0 V0]. pose proof (K w _ Lw (Forall2_app V0 V1)) as K'. clear K. rewrite fold_left_app in K'.
  destruct (sees_only _ _ _ _ _ _ _ S V1) as [O1 O2].
  pose proof (between_history m MO SG vs0 f0 (between_new m MO SG)) as B0. set (v0 := fold_left (observe m) vs0 f0) in *.
  split; intros F N CO H1 H2; (destruct K' as [IB K]; [apply Exists_app; right; exact (seen_some _ _ N)|]); (split; [exact IB|]); apply K.
  - destruct (crossed m MO SG vs1 v0 CO B0 (O2 F)) as [U _]. destruct B0 as [_ [_ B0]]. split; [discriminate|]. intro X. exfalso.
    revert U. unfold Rmax. destruct (Rle_dec _ _); lra.
  - destruct (struck m MO SG vs1 v0 CO B0 (O1 F)) as [U _]. destruct B0 as [_ [B0 _]]. split; [intros _|reflexivity].
    revert U. unfold Rmin. destruct (Rle_dec _ _); lra.
Qed.

(** The default numbers. *)
Lemma walled_default : forall f, ln_accurate f -> exists m, lidar_default f = Ret m /\ max_range m = DEFAULT_MAX_RANGE /\
  (signs_ok m /\ fle f0 (occupied_threshold_logodds m) /\ fltb (occupied_threshold_logodds m) (evidence m f0 true) = true) /\
  forall d r t o L0 L1 wall, map_range d r t -> real DEFAULT_MAX_RANGE <= 1048576 * real r -> recorded d r t m o (L0 ++ L1) -> Forall (sees d (real DEFAULT_MAX_RANGE) (real r) wall) L1 ->
  exists cb, covers_cells d r t (om_grid o) cb /\ forall w vs, length w = d -> Forall2 (verdict d (real DEFAULT_MAX_RANGE) (real r) w) L1 vs ->
    (~ wall w -> (9 <= seen false vs)%nat -> in_box cb w /\ om_occupied o (map2 Z.sub w (cmin cb)) = Ret false) /\
    (wall w -> (3 <= seen true vs)%nat -> in_box cb w /\ om_occupied o (map2 Z.sub w (cmin cb)) = Ret true).
Proof.
  intros f A. destruct (default_values f A) as (m & E & N & R). exists m. split; [exact E|]. split; [exact R|]. destruct (default_bounds m N) as (MO & SG & C1 & C2 & K). cbv zeta in K.
  destruct N as (_ & _ & _ & _ & _ & T). split.
  - split; [exact SG|]. assert (F0 : finite f0) by reflexivity. pose proof (proj1 (mod_thr m MO)) as Ft. split; [apply (fle_real _ _ F0 Ft); rewrite T; change (real f0) with 0; lra|].
    pose proof (between_new m MO SG) as B0. destruct (struck m MO SG [Some true] f0 C1 B0 ltac:(repeat constructor; now right)) as [U _].
    pose proof (between_history m MO SG [Some true] f0 B0) as [F1 _]. cbn [fold_left observe] in *. apply (flt_real _ _ Ft F1). rewrite T.
    eapply Rlt_le_trans; [|exact U]. change (INR (seen true [Some true])) with 1. change (real f0) with 0. destruct C1 as [C1 _]. apply Rmin_glb_lt; lra.
  - rewrite <- R. intros d r t o L0 L1 wall M Bm H S.
    destruct (walled_changed d r t m o L0 L1 wall M ltac:(rewrite R; vm_compute; reflexivity) ltac:(rewrite R; reflexivity) Bm SG MO H S) as (cb & C & Q). exists cb. split; [exact C|].
    intros w vs Lw V. destruct (Q w vs Lw V) as [K1 K2]. cbv zeta in K1, K2. rewrite T in K1, K2.
    split; intros F G; [apply K1|apply K2]; auto; try lia; try lra; apply le_INR in G; destruct C1, C2.
    + apply Rle_trans with (INR 9 * (1023 / 1024 * - real (miss_logodds m))); [cbn [INR]; lra|apply Rmult_le_compat_r; lra].
    + apply Rlt_le_trans with (INR 3 * (1023 / 1024 * real (hit_logodds m))); [cbn [INR]; lra|apply Rmult_le_compat_r; lra].
Qed.
