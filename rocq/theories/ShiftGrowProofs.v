(** C88: maps that have grown before the scan. *)
From Coq Require Import ZArith List Bool Reals Lra Lia.
From Flocq Require Import Core BinarySingleNaN.
From Verif Require Import Base F32 FloatFacts RoundError Arith Geom NdArray GridMap RayCaster NoiseModel Spec SpecMap SpecNoise SpecShift NdProofs ConverterProofs RayProofs CastProofs GridProofs ExpandProofs MapProofs NoiseProofs ShiftProofs ShiftFloatProofs ShiftMapProofs.
Open Scope Z_scope.

Lemma at_units : forall q r k, -60 <= q <= 30 -> res_ok r -> even_units q r -> Z.abs k <= 2 ^ 20 ->
  let p := point_coord_from_cell_coord F32A k f0 r in (Rabs (real p) <= IZR (2 ^ 20) * bpow radix2 q)%R ->
  units q p /\ (real p = IZR k * real r)%R.
Proof.
  intros q r k Hq HR ER Hk p N. destruct (even_isu q r ER) as (j & Hj & Ir).
  destruct (pcc0 k r HR ltac:(lia)) as [_ A]. fold p in A.
  assert (B : Z.abs (k * (2 * j)) <= 2 ^ 21).
  { pose proof Ir as [_ Er]. unfold real in *. pose proof (bpow_gt_0 radix2 q) as U.
    assert (X : (Rabs (IZR k * B2R r) <= IZR (2 ^ 21) * bpow radix2 q)%R).
    { change (bpow radix2 (-24)) with (/ 16777216)%R in A. rewrite <- (Rabs_pos_eq (B2R r)) in A at 2.
      2:{ rewrite Er. apply Rmult_le_pos; [apply IZR_le; lia|lra]. }
      rewrite <- Rabs_mult in A. change (IZR (2 ^ 21)) with 2097152%R. change (IZR (2 ^ 20)) with 1048576%R in N.
      apply Rabs_le_inv in A. apply Rabs_le_inv in N. pose proof (Rabs_pos (IZR k * B2R r)).
      unfold Rabs in *. destruct (Rcase_abs (IZR k * B2R r)); nra. }
    rewrite Er, <- Rmult_assoc, <- mult_IZR, Rabs_mult, (Rabs_pos_eq (bpow radix2 q)) in X by lra.
    apply Rmult_le_reg_r in X; [|exact U]. rewrite <- abs_IZR in X. now apply le_IZR in X. }
  assert (I : isu q (k * (2 * j) + 0) p).
  { apply (isu_add q Hq); [apply (isu_scale q Hq); [lia|exact Ir|lia]|split; [reflexivity|cbn; lra]|lia]. }
  rewrite Z.add_0_r in I. destruct I as [F E]. destruct Ir as [_ Er]. split.
  - split; [exact F|]. exists (k * (2 * j)). split; [exact B|exact E].
  - unfold real. rewrite E, Er, mult_IZR. ring.
Qed.

Lemma corner_units : forall A d r t (g : grid_map A) cb q, map_range d r t -> wf d r t g cb -> -60 <= q <= 30 -> even_units q r -> near_zero q (bmin (gm_bounds g)) ->
  length (bmin (gm_bounds g)) = d /\ Forall (units q) (bmin (gm_bounds g)) /\ (forall i, (i < d)%nat -> nth i (map real (bmin (gm_bounds g))) 0 = IZR (nth i (cmin cb) 0%Z) * real r)%R.
Proof.
  intros A d r t g cb q M W Hq ER N. destruct W as [_ _ O _ Wn Wb _ _]. rewrite Wb in *. rewrite (bfc_map d) in * by exact O. cbn [bmin] in *.
  destruct Wn as [Wn _]. destruct O as [L _]. destruct M as (_ & HR & _). unfold near_zero in N. clear Wb. revert d L. induction (cmin cb) as [|k l IH]; intros d L; cbn [map length] in *.
  - split; [exact L|]. split; [constructor|]. intros i Hi. lia.
  - apply Forall_cons_iff in N, Wn. destruct N as [N0 N], Wn as [W0 Wn]. destruct d as [|d]; [discriminate L|]. injection L as L.
    destruct (IH Wn N d L) as (L' & U & X). destruct (at_units q r k Hq HR ER ltac:(unfold KB in W0; lia) N0) as [U0 E0]. split; [now rewrite L'|]. split; [constructor; assumption|].
    intros [|i] Hi; cbn [nth]; [exact E0|]. apply X. lia.
Qed.

(** The place of a cell, counted from two corners. *)
Lemma renumber : forall c lo lo' : list Z, length c = length lo -> length lo = length lo' ->
  map2 Z.sub (map2 Z.add lo c) lo' = map2 Z.add c (map2 Z.sub lo lo').
Proof. induction c as [|x c IH]; intros [|y lo] [|z lo'] A B; cbn in *; try discriminate; [reflexivity|]. f_equal; [lia|]. apply IH; lia. Qed.

Lemma world_from : forall d r t q (g h : grid_map f32) cb cb', map_range d r t -> -60 <= q <= 30 -> even_units q r -> wf d r t g cb -> wf d r t h cb' ->
  near_zero q (bmin (gm_bounds g)) -> near_zero q (bmin (gm_bounds h)) ->
  (forall w x, in_box cb w -> gm_get g (map2 Z.sub w (cmin cb)) = Ret x -> gm_get h (map2 Z.sub w (cmin cb')) = Ret x) ->
  same_world (map2 Z.sub (cmin cb) (cmin cb')) g h.
Proof.
  intros d r t q g h cb cb' M Hq ER W W' N N' V.
  destruct (corner_units _ _ _ _ _ _ _ M W Hq ER N) as (L & _ & X). destruct (corner_units _ _ _ _ _ _ _ M W' Hq ER N') as (L' & _ & X').
  pose proof W as [Wr _ (O1 & O2 & _) _ _ _ Ws St]. pose proof W' as [Wr' _ (O1' & O2' & _) _ _ _ _ _].
  assert (LW : length (map2 Z.sub (cmin cb) (cmin cb')) = d) by (apply map2_len; assumption).
  split; [congruence|]. split.
  - split; [rewrite !map_length; lia|]. split; [rewrite map_length; lia|]. rewrite map_length. intros i Hi. rewrite L in Hi. rewrite X, X' by assumption.
    rewrite (nth_map2 Z.sub _ _ i 0%Z 0%Z 0%Z) by lia. rewrite minus_IZR, Wr. ring.
  - intros c v Lc Ic _ G. pose proof (gm_get_range g c v St Ic G) as R. rewrite Ws in R. apply range_box in R; [|congruence]. destruct R as [B E].
    rewrite LW in Lc. pose proof (V _ v B) as Q. unfold cell in *. rewrite E in Q. specialize (Q G). rewrite renumber in Q by lia. exact Q.
Qed.

(** Growing moves the corner by whole cells and keeps what is there. *)
Lemma grown_world : forall d r t q (g h : grid_map f32) b v, map_range d r t -> reachable d r t g -> request_ok d r b -> gm_expand_bounds g b v = Ret h ->
  -60 <= q <= 30 -> even_units q r -> near_zero q (bmin (gm_bounds g)) -> near_zero q (bmin (gm_bounds h)) ->
  Forall (units q) (bmin (gm_bounds g)) /\ Forall (units q) (bmin (gm_bounds h)) /\ exists w, same_world w g h.
Proof.
  intros d r t q g h b v M H RQ E Hq ER N N'. destruct (wf_of_reachable d r t g M H) as [cb W].
  destruct (expand_step d r t g cb b v M W RQ) as (db & g' & cb' & u & _ & E' & W' & _ & _ & _ & _ & _ & _ & _ & _ & Old & _ & _).
  rewrite E in E'. injection E' as <-. split; [now apply (corner_units _ d r t g cb)|]. split; [now apply (corner_units _ d r t h cb')|].
  eexists. apply (world_from d r t q g h cb cb'); auto. intros w x B G. destruct (Old w B) as (_ & y & G1 & G2). congruence.
Qed.

Lemma tile_low : forall t l m k, 1 <= t -> Forall2 (tile_below t) l m -> Forall2 Z.le k l -> Forall (Z.divide t) k -> Forall2 Z.le k m.
Proof.
  intros t l m k Ht H. revert k. induction H as [|x y l m [[a D] R] H IH]; intros k A B; inversion A; subst; constructor; apply Forall_cons_iff in B; destruct B as [B0 B].
  - destruct B0 as [b ->]. apply Z.mul_le_mono_nonneg_r; [lia|]. assert (b * t < (a + 1) * t) by lia. assert (b < a + 1) by (apply (Zmult_lt_reg_r _ _ t); lia). lia.
  - now apply IH.
Qed.
Lemma tile_high : forall t l m k, 1 <= t -> Forall2 (tile_above t) l m -> Forall2 Z.le l k -> Forall (Z.divide t) k -> Forall2 Z.le m k.
Proof.
  intros t l m k Ht H. revert k. induction H as [|x y l m [[a D] R] H IH]; intros k A B; inversion A; subst; constructor; apply Forall_cons_iff in B; destruct B as [B0 B].
  - destruct B0 as [b ->]. apply Z.mul_le_mono_nonneg_r; [lia|]. assert ((a - 1) * t < b * t) by lia. assert (a - 1 < b) by (apply (Zmult_lt_reg_r _ _ t); lia). lia.
  - now apply IH.
Qed.
Lemma le_min : forall k a b, Forall2 Z.le k a -> Forall2 Z.le k b -> Forall2 Z.le k (map2 Z.min a b).
Proof. intros k a b H. revert b. induction H; intros b K; inversion K; subst; cbn [map2]; constructor; [lia|]. auto. Qed.
Lemma max_le : forall k a b, Forall2 Z.le a k -> Forall2 Z.le b k -> Forall2 Z.le (map2 Z.max a b) k.
Proof. intros k a b H. revert b. induction H; intros b K; inversion K; subst; cbn [map2]; constructor; [lia|]. auto. Qed.
Lemma le_all_trans : forall a b c, Forall2 Z.le a b -> Forall2 Z.le b c -> Forall2 Z.le a c.
Proof. intros a b c H. revert c. induction H; intros c K; inversion K; subst; constructor; [lia|]. auto. Qed.
Lemma union_within : forall d t a b u v big, 1 <= t -> (a = cb_empty d \/ sub_cells a big) -> sub_cells b big -> cells_union d a b u ->
  Forall2 (tile_below t) (cmin u) (cmin v) -> Forall2 (tile_above t) (cmax u) (cmax v) -> tile_aligned t big -> sub_cells v big.
Proof.
  intros d t a b u v big Ht HA [B1 B2] [U1 U2] T1 T2 [D1 D2].
  assert (S : sub_cells u big).
  { destruct (cb_eqb a (cb_empty d)) eqn:E.
    - apply cb_eqb_true in E. rewrite (U1 E). split; assumption.
    - assert (NE : a <> cb_empty d) by (intro Q; apply cb_eqb_true in Q; congruence). destruct HA as [HA|[A1 A2]]; [contradiction|]. rewrite (U2 NE). split; cbn [cmin cmax].
      + now apply le_min.
      + now apply max_le. }
  destruct S as [S1 S2]. split; [now apply (tile_low t (cmin u))|now apply (tile_high t (cmax u))].
Qed.
Lemma box_sub : forall a b w, sub_cells a b -> in_box a w -> in_box b w.
Proof.
  intros a b w [S1 S2] [I1 I2]. split; [now apply (le_all_trans _ (cmin a))|]. clear S1 I1. revert w I2. induction S2; intros w I2; inversion I2; subst; constructor; [lia|]. auto.
Qed.
Lemma empty_inside : forall d cb, cb_ordered d cb -> sub_cells cb (cb_empty d) -> cb = cb_empty d.
Proof.
  intros d [lo hi] (L1 & L2 & O) [S1 S2]. unfold cb_empty, cell_origin in *. cbn [cmin cmax] in *. revert lo hi L1 L2 O S1 S2.
  induction d as [|d IH]; intros [|a lo] [|b hi] L1 L2 O S1 S2; cbn in *; try discriminate; [reflexivity|].
  inversion O; inversion S1; inversion S2; subst. assert (E : mkCB lo hi = mkCB (repeat 0 d) (repeat 0 d)) by (apply IH; auto; lia). injection E as -> ->. assert (a = 0) by lia. assert (b = 0) by lia. now subst.
Qed.

(** Growing before the scan or only for it. *)
Lemma beforehand_world : forall d r t q (g h g1 h1 : grid_map f32) b b2 v, map_range d r t -> reachable d r t g -> request_ok d r b -> request_ok d r b2 ->
  gm_expand_bounds g b v = Ret h -> gm_expand_bounds g b2 v = Ret g1 -> gm_expand_bounds h b2 v = Ret h1 ->
  -60 <= q <= 30 -> even_units q r -> near_zero q (bmin (gm_bounds g1)) -> near_zero q (bmin (gm_bounds h1)) ->
  exists w, same_world w g1 h1 /\ Forall (Z.le 0) w.
Proof.
  intros d r t q g h g1 h1 b b2 v M H RQ RQ2 E E1 E2 Hq ER N N'. destruct (wf_of_reachable d r t g M H) as [cb W].
  destruct (expand_step d r t g cb b v M W RQ) as (db & x & cbh & u & _ & X & Wh & _ & _ & _ & _ & Sh & _ & _ & _ & Old & New & _). rewrite E in X. injection X as <-.
  destruct (expand_step d r t g cb b2 v M W RQ2) as (db1 & x & cb1 & u1 & D1 & X & W1 & U1 & T1 & T2 & _ & _ & _ & _ & _ & Old1 & New1 & _). rewrite E1 in X. injection X as <-.
  destruct (expand_step d r t h cbh b2 v M Wh RQ2) as (db2 & x & cb2 & u2 & D2 & X & W2 & _ & _ & _ & R2 & S2 & _ & _ & _ & Old2 & New2 & _). rewrite E2 in X. injection X as <-.
  rewrite D1 in D2. injection D2 as <-.
  assert (S : sub_cells cb1 cb2).
  { apply (union_within d t cb (cb_from_bounds db1 r) u1); auto; [apply M| |apply W2].
    destruct Sh as [Sh|Sh]; [now left|]. destruct S2 as [S2|S2].
    - left. subst cbh. apply empty_inside; [apply W|exact Sh].
    - right. destruct Sh as [P1 P2], S2 as [Q1 Q2]. split; [exact (le_all_trans _ _ _ Q1 P1)|exact (le_all_trans _ _ _ P2 Q2)]. }
  exists (map2 Z.sub (cmin cb1) (cmin cb2)). split.
  - apply (world_from d r t q g1 h1 cb1 cb2); auto. intros w x B G. pose proof (box_sub _ _ w S B) as B2.
    assert (DEC : forall c : cell_bounds, cb_ordered d c -> in_box c w \/ ~ in_box c w).
    { intros c (A1 & A2 & _). destruct (in_shape (map2 Z.sub (cmax c) (cmin c)) (map2 Z.sub w (cmin c))) eqn:I.
      - apply in_shape_iff in I. assert (Lw : length w = d). { destruct B as [B _]. apply Forall2_length in B. pose proof W1 as [_ _ (O1 & _) _ _ _ _ _]. unfold cell in *. lia. }
        left. apply box_range; [congruence|]. split; [unfold cell in *; lia|exact I].
      - right. intro Q. apply box_range in Q; [|congruence]. destruct Q as [_ Q]. apply in_shape_iff in Q. congruence. }
    destruct (DEC cb (wf_ordered _ _ _ _ _ W)) as [C|C].
    + destruct (Old1 w C) as (_ & y & G1 & G2). destruct (Old w C) as (Ch & z & G3 & G4). destruct (Old2 w Ch) as (_ & z' & G5 & G6). congruence.
    + pose proof (New1 w C B) as G1. destruct (DEC cbh (wf_ordered _ _ _ _ _ Wh)) as [Ch|Ch].
      * pose proof (New w C Ch) as G3. destruct (Old2 w Ch) as (_ & z' & G5 & G6). congruence.
      * pose proof (New2 w Ch B2) as G3. congruence.
  - destruct S as [S _]. clear -S. revert S. generalize (cmin cb1) (cmin cb2). intros l l' S. induction S; cbn [map2]; constructor; [lia|assumption].
Qed.

Lemma beforehand : forall d r t q fuel of oo of' oo' m g h h1 o cloud b g', map_range d r t -> -60 <= q <= 30 -> Z.of_nat fuel <= 2 ^ 61 ->
  is_order of -> is_order oo -> is_order of' -> is_order oo' -> reachable d r t g -> request_ok d r b -> request_ok d r (pc_bounds cloud) ->
  gm_expand_bounds g b f0 = Ret h -> gm_expand_bounds h (pc_bounds cloud) f0 = Ret h1 -> even_units q r ->
  (forall p, p = o \/ In p (pc_points cloud) -> Forall (units q) p /\ above (map real (bmin (gm_bounds g'))) (map real p)) ->
  near_zero q (bmin (gm_bounds g')) -> near_zero q (bmin (gm_bounds h1)) ->
  fltb f0 (max_range m) = false \/ (finite (max_range m) /\ (real (max_range m) <= IZR (2 ^ 21) * bpow radix2 q)%R) ->
  integrate_point_cloud fuel of oo m g o cloud = Ret g' ->
  exists w h', integrate_point_cloud fuel of' oo' m h o cloud = Ret h' /\ same_world w g' h'.
Proof.
  intros d r t q fuel of oo of' oo' m g h h1 o cloud b g' M Hq Hf O1 O2 O3 O4 H RQ RQ2 E E2 ER SI N N' Hm I.
  destruct (wf_of_reachable d r t g M H) as [cb W]. pose proof (wf_storage _ _ _ _ _ W) as Sg.
  destruct (integrate_spec _ _ _ _ _ _ _ _ O1 O2 Sg I) as (g1 & free & occ & E1 & Ec & S1 & S' & Sh1 & B1 & R1 & _).
  rewrite B1 in *. destruct (beforehand_world d r t q g h g1 h1 b (pc_bounds cloud) f0 M H RQ RQ2 E E1 E2 Hq ER N N') as (w & SW & Pw).
  assert (H1 : reachable d r t g1) by exact (reach_expand d r t g _ _ g1 H RQ2 E1). assert (Hh : reachable d r t h) by exact (reach_expand d r t g _ _ h H RQ E).
  assert (Hh1 : reachable d r t h1) by exact (reach_expand d r t h _ _ h1 Hh RQ2 E2).
  destruct (wf_of_reachable d r t g1 M H1) as [cb1 W1]. destruct (wf_of_reachable d r t h M Hh) as [cbh Wh]. destruct (wf_of_reachable d r t h1 M Hh1) as [cb2 W2].
  destruct (corner_units _ _ _ _ _ _ _ M W1 Hq ER N) as (L1 & U1 & _). destruct (corner_units _ _ _ _ _ _ _ M W2 Hq ER N') as (L2 & U2 & _).
  exists w. destruct (map_moved d q fuel of oo of' oo' m g h g1 h1 o cloud w g') as (h' & Ih & SW' & _); auto.
  - apply M.
  - apply Wh.
  - now rewrite (wf_resolution _ _ _ _ _ W1).
  - intros p Hp. destruct (SI p Hp) as [Up Ap]. split; [exact Up|]. split; [exact Ap|]. destruct SW as (_ & (Q1 & Q2 & Q) & _). destruct Ap as [La Ap].
    split; [congruence|]. intros i Hi. rewrite Q1 in Hi. rewrite Q by exact Hi. specialize (Ap i Hi).
    assert (0 <= IZR (nth i w 0%Z) * real (gm_resolution g1))%R.
    { rewrite (wf_resolution _ _ _ _ _ W1). destruct M as (_ & [_ HR] & _). pose proof (bpow_gt_0 radix2 (-100)). apply Rmult_le_pos; [|unfold real in *; lra].
      apply IZR_le. rewrite Forall_forall in Pw. apply Pw. apply nth_In. lia. }
    lra.
  - eauto.
Qed.
