(** The corners of a rounded-out box lie on the grid. *)
From Coq Require Import ZArith List Bool Reals Lra Lia.
From Flocq Require Import Core BinarySingleNaN.
From Verif Require Import Base F32 FloatFacts RoundError Arith Geom NdArray GridMap Spec SpecMap ConverterProofs GeomProofs BoundsProofs NdProofs GridProofs ExpandProofs UnalignedProofs MapProofs.
Open Scope Z_scope.

Section Align.
Local Open Scope R_scope.
Context (r : f32) (HR : res_ok r).

Lemma align_min : forall v : f32, within_cells (2 ^ 18) r v -> on_grid r (fdisc_min1 r v).
Proof. intros v W. destruct (disc_min_cell r HR v W) as [F C]. exists (wc r (fdisc_min1 r v)). exact C. Qed.

Lemma align_max : forall (e : bool) (v : f32), within_cells (2 ^ 18) r v -> on_grid r (fdisc_max1 r e v).
Proof.
  intros e v W. destruct e.
  { destruct (disc_max_cell r HR v W) as (F & C & _). exists (wc r (fdisc_max1 r true v)). exact C. }
  pose proof (res_ok_pos r HR) as P. destruct (quotient r HR v W) as (Fc & Bc & Ec & Dc).
  unfold fdisc_max1. cbv zeta. destruct (relative_eq _ _) eqn:RE.
  - destruct (releq_int r HR v W RE) as [N C]. exists (ZnearestA (B2R (fdiv v r))). unfold real in *. lra.
  - destruct (quotient_between v r (proj1 W) (proj1 HR) P RE) as (_ & _ & CF).
    destruct (fceil_fin _ Fc) as [Ff Ef]. rewrite CF in Ef.
    assert (N : (Z.abs (Zfloor (B2R (fdiv v r))) <= 262146)%Z).
    { apply (int_abs _ (B2R (fdiv v r)) 262145); [|assumption].
      pose proof (Zfloor_lb (B2R (fdiv v r))). pose proof (Zfloor_ub (B2R (fdiv v r))). rewrite Rabs_pos_eq; lra. }
    destruct (mul_int r HR _ _ Ff Ef ltac:(lia)) as [Fm Em]. exists (Zfloor (B2R (fdiv v r)) + 1)%Z. unfold real. lra.
Qed.

(** With [expand], the cell of a max corner lies entirely before the new corner. *)
Lemma expand_next : forall v : f32, within_cells (2 ^ 18) r v -> next_corner r v (fdisc_max1 r true v).
Proof.
  intros v W. destruct (disc_max_cell r HR v W) as (F & C & K). exists (wc r (fdisc_max1 r true v)). split; [exact C|].
  intros j Hj H. apply K; assumption.
Qed.
End Align.

Lemma discretized_aligned : forall d b r expand b', res_ok r -> request_ok d r b ->
  bounds_discretized b r expand = Ret b' ->
  Forall (on_grid r) (bmin b') /\ Forall (on_grid r) (bmax b') /\
  (expand = true -> Forall2 (next_corner r) (bmax b) (bmax b')).
Proof.
  intros d b r expand b' HR (O & W1 & W2) H. unfold bounds_discretized, bounds_new in H.
  destruct (oassert _) eqn:A; cbn [obind] in H; try discriminate H. injection H as <-. cbn [bmin bmax].
  rewrite !Forall_map. split; [|split].
  - eapply Forall_impl; [|exact W1]. intros v. now apply align_min.
  - eapply Forall_impl; [|exact W2]. intros v. now apply align_max.
  - intros ->. clear -W2 HR. induction W2; cbn [map]; constructor; auto. now apply expand_next.
Qed.

(** ** Which cell a point reads *)
Section Reads.
Context {A : Type}.
Implicit Types g : grid_map A.

Lemma axis_nearest : forall r lo (o p : list f32), res_ok r -> Forall (fun k => Z.abs k <= KB) lo -> Forall2 (at_cell r) lo o ->
  Forall (within_cells (2 ^ 18) r) p -> length p = length lo ->
  Forall2 (fun w x => (Rabs (IZR w - real x / real r) <= 7 / 10)%R)
    (map2 Z.add lo (map2 (fun x y => cell_coord_from_point_coord F32A x y r) p o)) p.
Proof.
  intros r lo o p HR N C. revert p. induction C as [|k o1 lo o Ck C IH]; intros [|x p] W L; try discriminate L; [constructor|].
  inversion_clear N. inversion_clear W as [|? ? [Fx Wx] W']. cbn [map2]. constructor; [|apply IH; auto].
  pose proof (res_ok_pos r HR) as P. unfold real in *. change (IZR (2 ^ 18)) with 262144%R in Wx.
  assert (B : (Rabs (B2R x) <= 262146 * B2R r)%R) by lra.
  pose proof (index_near r HR x o1 k Fx B H Ck) as I. rewrite plus_IZR.
  match goal with |- (Rabs ?a <= _)%R => match type of I with (Rabs ?b <= _)%R => replace a with b by ring end end. exact I.
Qed.

Lemma sub_of_add : forall (lo i : list Z), length lo = length i -> map2 Z.sub (map2 Z.add lo i) lo = i.
Proof. induction lo as [|a lo IH]; intros [|b i] L; try discriminate L; [reflexivity|]. cbn [map2]. f_equal; [lia|]. apply IH. now injection L. Qed.

Lemma near_isize : forall r (w lo : list Z) p, (0 < real r)%R -> Forall (fun k => Z.abs k <= KB) lo -> Forall (within_cells (2 ^ 18) r) p ->
  Forall2 (fun w x => (Rabs (IZR w - real x / real r) <= 7 / 10)%R) w p -> cells_in_isize (map2 Z.sub w lo).
Proof.
  intros r w lo p P N W F. revert lo N W. induction F as [|k x w p H F IH]; intros [|a lo] N W; try solve [constructor].
  inversion_clear N. inversion_clear W as [|? ? [Fx Wx] W']. cbn [map2]. constructor; [|now apply IH].
  change (IZR (2 ^ 18)) with 262144%R in Wx.
  assert (B : (Rabs (real x / real r) <= 262144)%R).
  { unfold Rdiv. rewrite Rabs_mult, (Rabs_pos_eq (/ real r)) by (apply Rlt_le, Rinv_0_lt_compat; assumption).
    apply Rmult_le_reg_r with (real r); [assumption|]. rewrite Rmult_assoc, Rinv_l, Rmult_1_r by lra. exact Wx. }
  assert (K : (Rabs (IZR k) <= 262145)%R).
  { replace (IZR k) with ((IZR k - real x / real r) + real x / real r)%R by ring. eapply Rle_trans; [apply Rabs_triang|]. lra. }
  rewrite <- abs_IZR in K. apply le_IZR in K. unfold KB in *. unfold isize_min, isize_max. lia.
Qed.

Lemma reads_nearest : forall d r t g cb p, map_range d r t -> reachable d r t g -> covers_cells d r t g cb ->
  length p = d -> Forall (within_cells (2 ^ 18) r) p ->
  exists w, Forall2 (fun k x => (Rabs (IZR k - real x / real r) <= 7 / 10)%R) w p /\
    gm_cell_from_point g p = map2 Z.sub w (cmin cb) /\
    (in_box cb w -> exists v, gm_get g (gm_cell_from_point g p) = Ret v) /\
    (~ in_box cb w -> gm_get g (gm_cell_from_point g p) = Panic).
Proof.
  intros d r t g cb p M H C Lp Wp. pose proof (covers_wf d r t g cb M H C) as W. pose proof (proj1 (proj2 M)) as HR.
  destruct C as [_ _ _ _ _ C1 _ _ _]. destruct W as [Wr _ (L1 & L2 & O) _ [N1 N2] _ Ws Wst].
  pose proof (axis_nearest r (cmin cb) (bmin (gm_bounds g)) p HR N1 C1 Wp ltac:(congruence)) as Q.
  fold (cell_from_point F32A p (bmin (gm_bounds g)) r) in Q. set (i := cell_from_point F32A p (bmin (gm_bounds g)) r) in *.
  assert (LB : length (bmin (gm_bounds g)) = d) by (apply Forall2_length in C1; unfold cell, point in *; congruence).
  assert (Li : length i = d).
  { unfold i, cell_from_point. unfold point in *. change (T F32A) with f32. rewrite map2_length', Lp, LB. apply Nat.min_id. }
  assert (Lw : length (map2 Z.add (cmin cb) i) = d).
  { unfold cell in *. rewrite map2_length', L1, Li. apply Nat.min_id. }
  assert (Ei : gm_cell_from_point g p = map2 Z.sub (map2 Z.add (cmin cb) i) (cmin cb)).
  { unfold gm_cell_from_point. rewrite Wr. fold i. symmetry. apply sub_of_add. unfold cell in *. congruence. }
  exists (map2 Z.add (cmin cb) i). split; [exact Q|]. split; [exact Ei|].
  assert (I : cells_in_isize (gm_cell_from_point g p)).
  { rewrite Ei. apply (near_isize r _ _ p); try assumption. apply (res_ok_pos r HR). }
  destruct (gm_get_iff g _ Wst I) as [G1 G2]. rewrite Ws in G1, G2.
  assert (B : in_box cb (map2 Z.add (cmin cb) i) <-> in_range (map2 Z.sub (cmax cb) (cmin cb)) (gm_cell_from_point g p)).
  { rewrite Ei. split; intros B.
    - apply (box_range cb) in B; [|congruence]. apply B.
    - apply (box_range cb); [congruence|]. split; [unfold cell in *; congruence|exact B]. }
  split; intros J; [apply G1|apply G2]; tauto.
Qed.

Lemma reads_which : forall d r t g cb p, map_range d r t -> reachable d r t g -> covers_cells d r t g cb ->
  length p = d -> Forall (within_cells (2 ^ 18) r) p ->
  ((forall i, (i < d)%nat -> IZR (nth i (cmin cb) 0%Z) - 3 / 10 < real (nth i p f0) / real r < IZR (nth i (cmax cb) 0%Z) - 7 / 10)%R ->
   exists v, gm_get g (gm_cell_from_point g p) = Ret v) /\
  (forall i, (i < d)%nat ->
     (real (nth i p f0) / real r < IZR (nth i (cmin cb) 0%Z) - 7 / 10 \/
      IZR (nth i (cmax cb) 0%Z) - 3 / 10 < real (nth i p f0) / real r)%R ->
   gm_get g (gm_cell_from_point g p) = Panic).
Proof.
  intros d r t g cb p M H C Lp Wp. destruct (reads_nearest d r t g cb p M H C Lp Wp) as (w & Q & _ & G1 & G2).
  destruct C as [_ _ (L1 & L2 & _) _ _ _ _ _ _].
  assert (Lw : length w = d) by (apply Forall2_length in Q; unfold cell, point in *; congruence).
  assert (N : forall i, (i < d)%nat -> (- (7 / 10) <= IZR (nth i w 0%Z) - real (nth i p f0) / real r <= 7 / 10)%R).
  { intros i Hi. apply Rabs_le_inv. apply (proj1 (Forall2_nth_iff _ 0 f0 w p ltac:(congruence)) Q). now rewrite Lw. }
  assert (LT : forall a b, (IZR a < IZR b + 1)%R -> a <= b).
  { intros a b K. change 1%R with (IZR 1) in K. rewrite <- plus_IZR in K. apply lt_IZR in K. lia. }
  unfold cell in *. split.
  - intros K. apply G1. split; apply (Forall2_nth_iff _ 0 0); try congruence; intros i Hi.
    + rewrite L1 in Hi. specialize (K i Hi). specialize (N i Hi). apply LT. lra.
    + rewrite Lw in Hi. specialize (K i Hi). specialize (N i Hi). apply lt_IZR. lra.
  - intros i Hi K. apply G2. intros [B1 B2].
    apply (proj1 (Forall2_nth_iff _ 0 0 _ _ (eq_trans L1 (eq_sym Lw)))) with (i := i) in B1; [|now rewrite L1].
    apply (proj1 (Forall2_nth_iff _ 0 0 _ _ (eq_trans Lw (eq_sym L2)))) with (i := i) in B2; [|now rewrite Lw].
    specialize (N i Hi). apply IZR_le in B1. apply Zlt_le_succ, IZR_le in B2. unfold Z.succ in B2. rewrite plus_IZR in B2. lra.
Qed.
End Reads.

(** ** Which cells a map has after growing *)
Section Grown.
Local Open Scope R_scope.
Lemma fle_reals : forall x y : f32, is_finite x = true -> is_finite y = true -> fle x y -> B2R x <= B2R y.
Proof. intros x y Fx Fy H. apply fleb_iff in H. destruct H as (_ & _ & H). now rewrite !ext_finite in H by assumption. Qed.
Lemma lower_number : forall r v, res_ok r -> within_cells (2 ^ 18) r v -> real v / real r - 6 / 5 < IZR (wc r (fdisc_min1 r v)) <= real v / real r + / 5.
Proof.
  intros r v HR W. pose proof (res_ok_pos r HR) as P. destruct (disc_min_cell r HR v W) as [F C]. destruct W as [Fv Wv]. change (IZR (2 ^ 18)) with 262144 in Wv.
  unfold finite, real in *. destruct (fdisc_min1_spec r v (proj1 HR) P (is_finite_not_nan _ Fv)) as [S1 S2]. destruct HR as [Fr [R1 R2]]. unfold real in R1, R2.
  assert (A : Rabs (B2R v - B2R r) <= 262145 * B2R r) by (eapply Rle_trans; [apply Rabs_triang|]; rewrite Rabs_Ropp, (Rabs_pos_eq (B2R r)) by lra; lra).
  destruct (fsub_fin v r Fv Fr) as [Fs Es].
  { apply rnd_abs_lt_128. eapply Rle_trans; [exact A|]. apply Rle_trans with (bp 20 * bp 100); [change (bp 20) with 1048576; lra|rewrite <- bpow_plus; apply bpow_le; lia]. }
  apply fle_reals in S1; try assumption. apply fle_reals in S2; try assumption. rewrite Es in S1. pose proof (rnd_sub_rel v r) as E. unfold u32 in E.
  apply Rabs_le_inv in E. apply Rabs_le_inv in C. cbv zeta in C. set (k := IZR (wc _ _)) in *.
  assert (U1 : k * B2R r <= B2R v + / 5 * B2R r) by lra. assert (U2 : B2R v - 6 / 5 * B2R r < k * B2R r) by lra.
  assert (Q : B2R v = B2R v / B2R r * B2R r) by (field; lra).
  split; [apply Rmult_lt_reg_r with (B2R r)|apply Rmult_le_reg_r with (B2R r)]; lra.
Qed.
Lemma upper_number : forall r v, res_ok r -> within_cells (2 ^ 18) r v -> real v / real r < IZR (wc r (fdisc_max1 r true v)) <= real v / real r + 6 / 5.
Proof.
  intros r v HR W. pose proof (res_ok_pos r HR) as P. destruct (disc_max_cell r HR v W) as (F & C & K). destruct W as [Fv Wv]. change (IZR (2 ^ 18)) with 262144 in Wv.
  unfold finite, real in *. destruct (fdisc_max1_spec r v true (proj1 HR) P (is_finite_not_nan _ Fv)) as [S1 S2]. destruct HR as [Fr [R1 R2]]. unfold real in R1, R2.
  assert (A : Rabs (B2R v + B2R r) <= 262145 * B2R r) by (eapply Rle_trans; [apply Rabs_triang|]; rewrite (Rabs_pos_eq (B2R r)) by lra; lra).
  destruct (fadd_fin v r Fv Fr) as [Fs Es].
  { apply rnd_abs_lt_128. eapply Rle_trans; [exact A|]. apply Rle_trans with (bp 20 * bp 100); [change (bp 20) with 1048576; lra|rewrite <- bpow_plus; apply bpow_le; lia]. }
  apply fle_reals in S1; try assumption. apply fle_reals in S2; try assumption. rewrite Es in S2. pose proof (rnd_add_rel v r) as E. unfold u32 in E.
  assert (Q : B2R v = B2R v / B2R r * B2R r) by (field; lra).
  apply Rabs_le_inv in E. apply Rabs_le_inv in C. split.
  - pose proof (Zfloor_lb (B2R v / B2R r)) as L1. pose proof (Zfloor_ub (B2R v / B2R r)) as L2. apply Rabs_le_inv in Wv.
    assert (B : -262144 <= B2R v / B2R r <= 262144) by (split; apply Rmult_le_reg_r with (B2R r); lra).
    assert (H : (Zfloor (B2R v / B2R r) + 1 <= wc r (fdisc_max1 r true v))%Z).
    { apply K; [|rewrite Q at 2; apply Rmult_le_compat_r; lra].
      assert (-262146 < Zfloor (B2R v / B2R r))%Z by (apply lt_IZR; lra). assert (Zfloor (B2R v / B2R r) < 262146)%Z by (apply lt_IZR; lra). lia. }
    apply IZR_le in H. rewrite plus_IZR in H. lra.
  - cbv zeta in C. set (k := IZR (wc _ _)) in *. apply Rmult_le_reg_r with (B2R r); lra.
Qed.
End Grown.
Lemma grown_cells : forall A d r t (g : grid_map A) b v, map_range d r t -> reachable d r t g -> request_ok d r b ->
  exists g' cb cb' lo hi u, gm_expand_bounds g b v = Ret g' /\ covers_cells d r t g cb /\ covers_cells d r t g' cb' /\
  Forall2 (fun k x => real x / real r - 6 / 5 < IZR k <= real x / real r + / 5)%R lo (bmin b) /\
  Forall2 (fun k x => real x / real r < IZR k <= real x / real r + 6 / 5)%R hi (bmax b) /\
  cells_union d cb (mkCB lo hi) u /\ Forall2 (tile_below t) (cmin u) (cmin cb') /\ Forall2 (tile_above t) (cmax u) (cmax cb').
Proof.
  intros A d r t g b v M H RQ. pose proof (proj1 (proj2 M)) as HR.
  destruct (expand_wellformed d r t g b v M H RQ) as (g' & db & cb & cb' & u & E & C & C' & D & U & T1 & T2 & _).
  exists g', cb, cb', (map (wc r) (map (fdisc_min1 r) (bmin b))), (map (wc r) (map (fdisc_max1 r true) (bmax b))), u.
  split; [exact E|]. split; [exact C|]. split; [exact C'|]. destruct RQ as ((L1 & L2 & _) & W1 & W2). split; [|split; [|split; [|split; assumption]]].
  - clear -W1 HR. induction W1; cbn [map]; constructor; auto. now apply lower_number.
  - clear -W2 HR. induction W2; cbn [map]; constructor; auto. now apply upper_number.
  - unfold bounds_discretized, bounds_new in D. destruct (oassert _); cbn [obind] in D; try discriminate D. injection D as <-.
    rewrite (from_bounds_map d) in U; [exact U|exact HR|cbn [bmin]; now rewrite map_length|cbn [bmax]; now rewrite map_length].
Qed.

(** A request well inside the cells of a map changes nothing. *)
Lemma expand_well_inside : forall A d r t (g : grid_map A) cb b v, map_range d r t -> reachable d r t g -> covers_cells d r t g cb -> request_ok d r b ->
  Forall2 (fun k x => IZR k + / 5 <= real x / real r)%R (cmin cb) (bmin b) ->
  Forall2 (fun x k => real x / real r < IZR k - / 5)%R (bmax b) (cmax cb) ->
  gm_expand_bounds g b v = Ret g.
Proof.
  intros A d r t g cb b v M H C RQ I1 I2. pose proof (proj1 (proj2 M)) as HR. pose proof (covers_wf d r t g cb M H C) as W.
  destruct (expand_wellformed d r t g b v M H RQ) as (_ & db & _ & _ & _ & _ & _ & _ & D & _).
  apply (expand_covered d r t g cb b v db M W RQ D).
  destruct RQ as ((L1 & L2 & _) & W1 & W2).
  unfold bounds_discretized, bounds_new in D. destruct (oassert _); cbn [obind] in D; try discriminate D. injection D as <-.
  rewrite (from_bounds_map d); [|exact HR|cbn [bmin]; now rewrite map_length|cbn [bmax]; now rewrite map_length]. cbn [bmin bmax]. split; cbn [cmin cmax].
  - clear -I1 W1 HR. revert W1. induction I1 as [|k x ks xs Q _ IH]; intro W1; cbn [map]; constructor; inversion W1; subst; auto.
    pose proof (lower_number r x HR H1) as [Q1 _]. assert (k - 1 < wc r (fdisc_min1 r x))%Z; [|lia]. apply lt_IZR. rewrite minus_IZR. lra.
  - clear -I2 W2 HR. revert W2. induction I2 as [|x k xs ks Q _ IH]; intro W2; cbn [map]; constructor; inversion W2; subst; auto.
    pose proof (upper_number r x HR H1) as [_ Q1]. assert (wc r (fdisc_max1 r true x) < k + 1)%Z; [|lia]. apply lt_IZR. rewrite plus_IZR. lra.
Qed.
