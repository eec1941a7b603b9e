(** Proofs about expand_bounds. *)
From Coq Require Import ZArith List Bool Reals Lra Lia Psatz.
From Flocq Require Import Core BinarySingleNaN.
From Verif Require Import Base F32 FloatFacts RoundError Arith Geom NdArray GridMap Spec SpecMap ConverterProofs GeomProofs BoundsProofs NdProofs GridProofs.
Open Scope Z_scope.

(** ** World cell of a coordinate *)
Definition wc (r x : f32) : Z := cell_coord_from_point_coord F32A x f0 r.

Lemma res_ok_ltb : forall r, res_ok r -> fltb f0 r = true.
Proof.
  intros r H. pose proof (res_ok_pos r H). destruct H as [F _]. apply fltb_iff. split; [reflexivity|].
  split; [now apply is_finite_not_nan|]. rewrite (ext_finite r F). now change (ext f0) with 0%R.
Qed.
Lemma wc_mono : forall r x y, res_ok r -> fle x y -> wc r x <= wc r y.
Proof. intros r x y H L. exact (monotone1 x y f0 r (res_ok_ltb r H) L). Qed.

Lemma wc_bound : forall (r x : f32) (B : R), res_ok r -> finite x -> (B <= 524288)%R ->
  (Rabs (real x) <= B * real r)%R -> (Rabs (IZR (wc r x)) <= B + 3 / 4)%R.
Proof.
  intros r x B HR F HB H. pose proof (res_ok_pos r HR) as P.
  pose proof (nearest1 x f0 r HR F eq_refl) as N. cbv zeta in N. fold (wc r x) in N. unfold real in *.
  simpl (B2R f0) in N. rewrite Rminus_0_r, Rplus_0_r in N.
  assert (H2 : (Rabs (B2R x) <= IZR (2 ^ 26) * B2R r)%R).
  { eapply Rle_trans; [exact H|]. apply Rmult_le_compat_r; [lra|]. change (2^26) with 67108864. lra. }
  specialize (N H2). change (bpow radix2 (-22)) with (/ 4194304)%R in N.
  apply Rmult_le_reg_r with (B2R r); [assumption|].
  replace (Rabs (IZR (wc r x)) * B2R r)%R with (Rabs (IZR (wc r x) * B2R r)) by (rewrite Rabs_mult, (Rabs_pos_eq (B2R r)) by lra; reflexivity).
  replace (IZR (wc r x) * B2R r)%R with ((IZR (wc r x) * B2R r - B2R x) + B2R x)%R by ring.
  eapply Rle_trans; [apply Rabs_triang|].
  assert (/ 4194304 * Rabs (B2R x) <= / 4 * B2R r)%R by nra. lra.
Qed.

Lemma cfp_origin : forall (p : point) d r, length p = d -> cell_from_point F32A p (origin d) r = map (wc r) p.
Proof.
  intros p d r <-. unfold cell_from_point, origin. induction p as [|x p IH]; [reflexivity|]. cbn [length repeat map2 map]. now rewrite IH.
Qed.

Lemma wc_zero : forall r x, res_ok r -> feqb x f0 = true -> wc r x = 0.
Proof. intros. now apply ccp_of_zero. Qed.

Lemma from_bounds_map : forall d b r, res_ok r -> length (bmin b) = d -> length (bmax b) = d ->
  cb_from_bounds b r = mkCB (map (wc r) (bmin b)) (map (wc r) (bmax b)).
Proof.
  intros d b r HR L1 L2. unfold cb_from_bounds. cbv zeta. rewrite L1. destruct (bounds_eqb _ _) eqn:E.
  - apply zero_box_iff in E; try assumption. destruct E as [E1 E2]. unfold cb_empty.
    assert (Z0 : forall l n, length l = n -> Forall (fun x => feqb x f0 = true) l -> cell_origin n = map (wc r) l).
    { intros l n <- H. unfold cell_origin. induction H as [|x l Hx H IH]; [reflexivity|]. cbn [map length repeat]. rewrite wc_zero by assumption. now rewrite IH. }
    f_equal; apply Z0; assumption.
  - rewrite !cfp_origin by assumption. reflexivity.
Qed.

Lemma pcc0 : forall k r, res_ok r -> Z.abs k <= 2 ^ 24 ->
  at_cell r k (point_coord_from_cell_coord F32A k f0 r).
Proof.
  intros k r [Fr Hr] H. unfold real in Hr. destruct (pcc_zero_fin k r Fr Hr H) as [F E]. split; [exact F|].
  unfold real. change (bpow radix2 (-24)) with (/ 16777216)%R. exact E.
Qed.

Lemma pfc_origin : forall (c : cell) d r, length c = d ->
  point_from_cell F32A c (origin d) r = map (fun k => point_coord_from_cell_coord F32A k f0 r) c.
Proof.
  intros c d r <-. unfold point_from_cell, origin. induction c as [|x c IH]; [reflexivity|]. cbn [length repeat map2 map]. now rewrite IH.
Qed.

Lemma bfc_map : forall d cb r, cb_ordered d cb -> bounds_from_cell_bounds cb r =
  mkBounds (map (fun k => point_coord_from_cell_coord F32A k f0 r) (cmin cb))
           (map (fun k => point_coord_from_cell_coord F32A k f0 r) (cmax cb)).
Proof.
  intros d cb r (L1 & L2 & _). unfold bounds_from_cell_bounds. cbv zeta. rewrite L1. now rewrite !pfc_origin by assumption.
Qed.

Lemma wc_pcc : forall k r, res_ok r -> Z.abs k <= 2 ^ 20 -> wc r (point_coord_from_cell_coord F32A k f0 r) = k.
Proof. intros k r HR H. apply round_trip1; try assumption. apply within_zero; [assumption|lia]. Qed.

(** Minimum and maximum of corners are minimum and maximum of cells. *)
Lemma wc_min : forall r x y, res_ok r -> is_nan x = false -> is_nan y = false ->
  wc r (if fltb x y then x else y) = Z.min (wc r x) (wc r y).
Proof.
  intros r x y HR Nx Ny. destruct (fltb x y) eqn:E.
  - assert (fle x y). { apply fltb_iff in E. apply fleb_iff. repeat split; try tauto. lra. }
    pose proof (wc_mono r x y HR H). lia.
  - assert (fle y x). { apply fleb_iff. repeat split; try assumption.
      destruct (Rle_lt_dec (ext y) (ext x)); [assumption|]. exfalso.
      assert (fltb x y = true) by (apply fltb_iff; auto). congruence. }
    pose proof (wc_mono r y x HR H). lia.
Qed.
Lemma wc_max : forall r x y, res_ok r -> is_nan x = false -> is_nan y = false ->
  wc r (if fltb y x then x else y) = Z.max (wc r x) (wc r y).
Proof.
  intros r x y HR Nx Ny. destruct (fltb y x) eqn:E.
  - assert (fle y x). { apply fltb_iff in E. apply fleb_iff. repeat split; try tauto. lra. }
    pose proof (wc_mono r y x HR H). lia.
  - assert (fle x y). { apply fleb_iff. repeat split; try assumption.
      destruct (Rle_lt_dec (ext x) (ext y)); [assumption|]. exfalso.
      assert (fltb y x = true) by (apply fltb_iff; auto). congruence. }
    pose proof (wc_mono r x y HR H). lia.
Qed.
Lemma map_wc_min : forall r (a b : point), res_ok r -> no_nan a -> no_nan b ->
  map (wc r) (map2 (fun v o => if fltb v o then v else o) a b) = map2 Z.min (map (wc r) a) (map (wc r) b).
Proof.
  intros r a b HR Na. revert b. induction Na as [|x a Nx Na IH]; intros b Nb; destruct b as [|y b]; try reflexivity.
  inversion Nb; subst. cbn [map2 map]. rewrite wc_min by assumption. f_equal. now apply IH.
Qed.
Lemma map_wc_max : forall r (a b : point), res_ok r -> no_nan a -> no_nan b ->
  map (wc r) (map2 (fun v o => if fltb o v then v else o) a b) = map2 Z.max (map (wc r) a) (map (wc r) b).
Proof.
  intros r a b HR Na. revert b. induction Na as [|x a Nx Na IH]; intros b Nb; destruct b as [|y b]; try reflexivity.
  inversion Nb; subst. cbn [map2 map]. rewrite wc_max by assumption. f_equal. now apply IH.
Qed.

(** ** The requested box in cells *)
Lemma disc_near : forall d r b db, res_ok r -> request_ok d r b -> bounds_discretized b r true = Ret db ->
  ordered d db /\ sub_box b db /\ cb_near (2 ^ 18 + 2) (mkCB (map (wc r) (bmin db)) (map (wc r) (bmax db))) /\
  Forall2 Z.le (map (wc r) (bmin db)) (map (wc r) (bmax db)).
Proof.
  intros d r b db HR (O & N1 & N2) E. pose proof (res_ok_pos r HR) as P.
  destruct (bounds_discretized_spec d b r true (proj1 HR) P O) as (db' & E' & O' & S & M1 & M2).
  rewrite E in E'. injection E' as <-. split; [assumption|]. split; [assumption|]. split.
  - destruct S as [S1 S2]. pose proof HR as [Fr Hr]. unfold real in Hr.
    assert (small : forall x, (Rabs x <= 262145 * B2R r)%R -> (Rabs (rnd x) < bp 128)%R).
    { intros x Hx. apply rnd_abs_lt_128. eapply Rle_trans; [exact Hx|].
      change 127 with (100 + 27). rewrite bpow_plus. change (bp 27) with 134217728%R. pose proof (bpow_gt_0 radix2 100). nra. }
    assert (IZ : forall z, (Rabs (IZR z) <= 262145 + / 4 + 3 / 4)%R -> Z.abs z <= 2 ^ 18 + 2).
    { intros z Hz. change (2 ^ 18 + 2) with 262146. apply le_IZR. rewrite abs_IZR. eapply Rle_trans; [exact Hz|]. lra. }
    assert (RB : forall x, (Rabs x <= 262145 * B2R r)%R -> (Rabs (rnd x) <= (262145 + / 4) * B2R r)%R).
    { intros x Hx. pose proof (rnd_err x) as A. replace (rnd x) with (rnd x - x + x)%R by ring.
      eapply Rle_trans; [apply Rabs_triang|]. pose proof (bp_m150 (B2R r) (proj1 Hr)).
      unfold u32 in *. nra. }
    split; cbn [cmin cmax]; apply Forall_forall; intros z Hz; apply in_map_iff in Hz; destruct Hz as (x & <- & Hx).
    + assert (Q : exists v, within_cells (2 ^ 18) r v /\ fle (fsub v r) x /\ fle x v).
      { clear -N1 M1 S1 Hx. revert N1 S1 Hx. induction M1 as [|v w l l' H M IH]; intros N1 S1 Hx; [destruct Hx|].
        inversion N1; inversion S1; subst. destruct Hx as [->|Hx]; [exists v; auto|apply IH; auto]. }
      destruct Q as (v & [Fv Wv] & Q1 & Q2). unfold real in Wv. change (IZR (2 ^ 18)) with 262144%R in Wv.
      destruct (fsub_fin v r Fv Fr) as [Fs Es].
      { apply small. eapply Rle_trans; [apply Rabs_triang|]. rewrite Rabs_Ropp, (Rabs_pos_eq (B2R r)) by lra. lra. }
      assert (A1 : Z.abs (wc r (fsub v r)) <= 2 ^ 18 + 2).
      { apply IZ. apply wc_bound; try assumption. lra. unfold real. rewrite Es. apply RB.
        eapply Rle_trans; [apply Rabs_triang|]. rewrite Rabs_Ropp, (Rabs_pos_eq (B2R r)) by lra. lra. }
      assert (A2 : Z.abs (wc r v) <= 2 ^ 18 + 2).
      { apply IZ. apply wc_bound; try assumption. lra. unfold real. lra. }
      pose proof (wc_mono r _ _ HR Q1). pose proof (wc_mono r _ _ HR Q2). lia.
    + assert (Q : exists v, within_cells (2 ^ 18) r v /\ fle v x /\ fle x (fadd v r)).
      { clear -N2 M2 S2 Hx. revert N2 S2 Hx. induction M2 as [|v w l l' H M IH]; intros N1 S1 Hx; [destruct Hx|].
        inversion N1; inversion S1; subst. destruct Hx as [->|Hx]; [exists v; auto|apply IH; auto]. }
      destruct Q as (v & [Fv Wv] & Q1 & Q2). unfold real in Wv. change (IZR (2 ^ 18)) with 262144%R in Wv.
      destruct (fadd_fin v r Fv Fr) as [Fs Es].
      { apply small. eapply Rle_trans; [apply Rabs_triang|]. rewrite (Rabs_pos_eq (B2R r)) by lra. lra. }
      assert (A1 : Z.abs (wc r (fadd v r)) <= 2 ^ 18 + 2).
      { apply IZ. apply wc_bound; try assumption. lra. unfold real. rewrite Es. apply RB.
        eapply Rle_trans; [apply Rabs_triang|]. rewrite (Rabs_pos_eq (B2R r)) by lra. lra. }
      assert (A2 : Z.abs (wc r v) <= 2 ^ 18 + 2).
      { apply IZ. apply wc_bound; try assumption. lra. unfold real. lra. }
      pose proof (wc_mono r _ _ HR Q1). pose proof (wc_mono r _ _ HR Q2). lia.
  - destruct O' as (_ & _ & O'). eapply Forall2_impl2; [|exact O']. intros x y. now apply wc_mono.
Qed.

(** ** The invariant *)
Definition KB : Z := 2 ^ 18 + 2 + 2 ^ 17.

Record wf {A} (d : nat) (r : f32) (t : Z) (g : grid_map A) (cb : cell_bounds) : Prop := {
  wf_resolution : gm_resolution g = r;
  wf_tile_size : gm_tile_size g = t;
  wf_ordered : cb_ordered d cb;
  wf_aligned : tile_aligned t cb;
  wf_near : cb_near KB cb;
  wf_bounds : gm_bounds g = bounds_from_cell_bounds cb r;
  wf_shape : nd_shape (gm_data g) = map2 Z.sub (cmax cb) (cmin cb);
  wf_storage : storage_ok (gm_data g)
}.

Lemma near_weaken : forall n m cb, cb_near n cb -> n <= m -> cb_near m cb.
Proof. intros n m cb [H1 H2] L. split; (eapply Forall_impl; [|eassumption]); cbn; lia. Qed.

Lemma wf_zero : forall d r cb, res_ok r -> cb_ordered d cb -> cb_near KB cb ->
  is_zero_box (bounds_from_cell_bounds cb r) <-> cb = cb_empty d.
Proof.
  intros d r cb HR O N. pose proof (near_weaken _ (2 ^ 20) _ N ltac:(unfold KB; lia)) as [N1 N2].
  unfold is_zero_box. rewrite (bfc_map d) by assumption. cbn [bmin bmax]. destruct O as (L1 & L2 & _). split.
  - intros [H1 H2].
    assert (Q : forall l n, length l = n -> Forall (fun x => Z.abs x <= 2 ^ 20) l ->
      Forall (fun x => feqb x f0 = true) (map (fun k => point_coord_from_cell_coord F32A k f0 r) l) -> l = cell_origin n).
    { intros l n <- B H. clear -HR B H. unfold cell_origin. induction l as [|k l IH]; [reflexivity|]. cbn [map length repeat] in *.
      inversion B; inversion H; subst. f_equal; [|now apply IH]. rewrite <- (wc_pcc k r HR) by assumption. now apply wc_zero. }
    destruct cb as [mn mx]. cbn [cmin cmax] in *. unfold cb_empty. f_equal; apply Q; assumption.
  - intros ->. unfold cb_empty, cell_origin. cbn [cmin cmax].
    assert (Q : feqb (point_coord_from_cell_coord F32A 0 f0 r) f0 = true).
    { destruct (pcc0 0 r HR ltac:(lia)) as [F E]. unfold real in E. rewrite Rmult_0_l, Rabs_R0, Rmult_0_l, Rmult_0_r, Rminus_0_r in E.
      assert (Z0 : B2R (point_coord_from_cell_coord F32A 0 f0 r) = 0%R).
      { pose proof (Rabs_pos (B2R (point_coord_from_cell_coord F32A 0 f0 r))). apply Rabs_eq_R0. lra. }
      apply feqb_iff. split; [now apply is_finite_not_nan|]. split; [reflexivity|].
      rewrite (ext_finite _ F), Z0. reflexivity. }
    clear -Q. split; (induction d; cbn [repeat map]; constructor; assumption).
Qed.

Lemma wf_cells : forall d r cb, res_ok r -> cb_ordered d cb -> cb_near KB cb ->
  map (wc r) (bmin (bounds_from_cell_bounds cb r)) = cmin cb /\
  map (wc r) (bmax (bounds_from_cell_bounds cb r)) = cmax cb.
Proof.
  intros d r cb HR O N. pose proof (near_weaken _ (2 ^ 20) _ N ltac:(unfold KB; lia)) as [N1 N2].
  rewrite (bfc_map d) by assumption. cbn [bmin bmax]. rewrite !map_map.
  split; (rewrite <- map_id; apply map_ext_Forall; eapply Forall_impl; [|eassumption]; cbv beta; intros k Hk; now apply wc_pcc).
Qed.

Lemma bfc_ordered : forall d r cb, res_ok r -> cb_ordered d cb -> cb_near KB cb -> ordered d (bounds_from_cell_bounds cb r).
Proof.
  intros d r cb HR O N. pose proof (near_weaken _ (2 ^ 20) _ N ltac:(unfold KB; lia)) as [N1 N2].
  rewrite (bfc_map d) by assumption. destruct O as (L1 & L2 & O). unfold ordered. cbn [bmin bmax]. rewrite !map_length.
  split; [assumption|]. split; [assumption|]. clear L1 L2. revert N1 N2. induction O as [|a b l m H O IH]; intros N1 N2; cbn [map]; constructor.
  - inversion N1; inversion N2; subst. destruct (pcc0 a r HR ltac:(lia)) as [Fa _]. destruct (pcc0 b r HR ltac:(lia)) as [Fb _].
    apply fleb_iff. split; [now apply is_finite_not_nan|]. split; [now apply is_finite_not_nan|].
    destruct (Rle_lt_dec (ext (point_coord_from_cell_coord F32A a f0 r)) (ext (point_coord_from_cell_coord F32A b f0 r))) as [L|L]; [assumption|].
    exfalso. assert (Q : fle (point_coord_from_cell_coord F32A b f0 r) (point_coord_from_cell_coord F32A a f0 r)).
    { apply fleb_iff. split; [now apply is_finite_not_nan|]. split; [now apply is_finite_not_nan|]. lra. }
    apply (wc_mono r _ _ HR) in Q. rewrite !wc_pcc in Q by assumption. assert (a = b) by lia. subst. lra.
  - inversion N1; inversion N2; subst. auto.
Qed.

Lemma cell_sub_ok : forall a b, Forall (fun x => Z.abs x <= 2 ^ 40) a -> Forall (fun x => Z.abs x <= 2 ^ 40) b ->
  cell_sub a b = Ret (map2 Z.sub a b).
Proof.
  intros a b Ha. revert b. induction Ha as [|x a Hx Ha IH]; intros b Hb; destruct b as [|y b]; try reflexivity.
  inversion Hb; subst. unfold cell_sub in *. cbn [combine omap fst snd map2]. rewrite isz_ok by (unfold isize_min, isize_max; lia).
  cbn [obind]. rewrite IH by assumption. reflexivity.
Qed.
Lemma cell_add_ok : forall a b, Forall (fun x => Z.abs x <= 2 ^ 40) a -> Forall (fun x => Z.abs x <= 2 ^ 40) b ->
  cell_add a b = Ret (map2 Z.add a b).
Proof.
  intros a b Ha. revert b. induction Ha as [|x a Hx Ha IH]; intros b Hb; destruct b as [|y b]; try reflexivity.
  inversion Hb; subst. unfold cell_add in *. cbn [combine omap fst snd map2]. rewrite isz_ok by (unfold isize_min, isize_max; lia).
  cbn [obind]. rewrite IH by assumption. reflexivity.
Qed.

Lemma cell_eqb_true : forall a b, cell_eqb a b = true <-> a = b.
Proof.
  induction a as [|x a IH]; intros [|y b]; cbn; split; intro H; try discriminate; try reflexivity.
  - rewrite andb_true_iff, IH in H. destruct H as [H ->]. apply Z.eqb_eq in H. now subst.
  - injection H as -> ->. rewrite Z.eqb_refl. cbn. now apply IH.
Qed.
Lemma cb_eqb_true : forall a b, cb_eqb a b = true <-> a = b.
Proof.
  intros [a1 a2] [b1 b2]. unfold cb_eqb. cbn. rewrite andb_true_iff, !cell_eqb_true. split.
  - now intros [-> ->].
  - intro H. now injection H.
Qed.

(** The box of cells before rounding to tiles. *)
Definition joined (d : nat) (cb rq : cell_bounds) : cell_bounds :=
  if cb_eqb cb (cb_empty d) then rq else mkCB (map2 Z.min (cmin cb) (cmin rq)) (map2 Z.max (cmax cb) (cmax rq)).

Lemma map2_near : forall f n a b, Forall (fun x => Z.abs x <= n) a -> Forall (fun x => Z.abs x <= n) b ->
  (forall x y, f x y = x \/ f x y = y) -> Forall (fun x => Z.abs x <= n) (map2 f a b).
Proof.
  intros f n a b Ha Hb Hf. revert b Hb. induction Ha as [|x a Hx Ha IH]; intros b Hb; destruct b as [|y b]; cbn; constructor.
  - inversion Hb; subst. destruct (Hf x y) as [-> | ->]; assumption.
  - inversion Hb; subst. now apply IH.
Qed.
Lemma map2_le : forall (a b : list Z), length a = length b ->
  Forall2 Z.le (map2 Z.min a b) a /\ Forall2 Z.le (map2 Z.min a b) b /\
  Forall2 Z.le a (map2 Z.max a b) /\ Forall2 Z.le b (map2 Z.max a b).
Proof.
  induction a as [|x a IH]; intros [|y b] L; cbn in L; try discriminate.
  - repeat split; constructor.
  - destruct (IH b ltac:(lia)) as (H1 & H2 & H3 & H4). cbn [map2]. repeat split; constructor; auto; lia.
Qed.
Lemma Zle_trans2 : forall a b c : list Z, Forall2 Z.le a b -> Forall2 Z.le b c -> Forall2 Z.le a c.
Proof. intros a b c H. revert c. induction H; intros c G; inversion G; subst; constructor; auto. lia. Qed.
Lemma below_le : forall t a b, Forall2 (tile_below t) a b -> Forall2 Z.le b a /\ Forall (Z.divide t) b.
Proof. induction 1 as [|x y a b H _ [I1 I2]]; split; constructor; auto; destruct H; auto; lia. Qed.
Lemma above_le : forall t a b, Forall2 (tile_above t) a b -> Forall2 Z.le a b /\ Forall (Z.divide t) b.
Proof. induction 1 as [|x y a b H _ [I1 I2]]; split; constructor; auto; destruct H; auto; lia. Qed.

Lemma tile_near_unique : forall t x z, 0 < t -> (t | x) -> (t | z) -> z - t < x < z + t -> z = x /\ x = z.
Proof. intros t x z Ht [p ->] [q ->] H. assert (p = q) by nia. subst. auto. Qed.

Lemma below_near : forall t a b a', 1 <= t <= 2 ^ 17 -> Forall2 (tile_below t) (map2 Z.min a b) a' ->
  length a = length b -> Forall (Z.divide t) a -> Forall (fun x => Z.abs x <= KB) a ->
  Forall (fun x => Z.abs x <= 2 ^ 18 + 2) b -> Forall (fun x => Z.abs x <= KB) a'.
Proof.
  intros t a b a' Ht H L D Na Nb. revert b a' H L D Nb. induction Na as [|x a Hx Na IH]; intros [|y b] a' H L D Nb; cbn in L; try discriminate.
  - inversion H. constructor.
  - cbn [map2] in H. inversion H as [|? z ? a'' Hz H']; subst. inversion D; inversion Nb; subst. constructor; [|eapply IH; eauto].
    destruct Hz as [Dz Bz]. unfold KB in *. destruct (Z.min_spec x y) as [[_ E]|[_ E]]; rewrite E in Bz; [|lia].
    assert (z = x). { apply (proj1 (tile_near_unique t x z ltac:(lia) H2 Dz ltac:(lia))). } lia.
Qed.
Lemma above_near : forall t a b a', 1 <= t <= 2 ^ 17 -> Forall2 (tile_above t) (map2 Z.max a b) a' ->
  length a = length b -> Forall (Z.divide t) a -> Forall (fun x => Z.abs x <= KB) a ->
  Forall (fun x => Z.abs x <= 2 ^ 18 + 2) b -> Forall (fun x => Z.abs x <= KB) a'.
Proof.
  intros t a b a' Ht H L D Na Nb. revert b a' H L D Nb. induction Na as [|x a Hx Na IH]; intros [|y b] a' H L D Nb; cbn in L; try discriminate.
  - inversion H. constructor.
  - cbn [map2] in H. inversion H as [|? z ? a'' Hz H']; subst. inversion D; inversion Nb; subst. constructor; [|eapply IH; eauto].
    destruct Hz as [Dz Bz]. unfold KB in *. destruct (Z.max_spec x y) as [[_ E]|[_ E]]; rewrite E in Bz; [lia|].
    assert (z = x). { apply (proj1 (tile_near_unique t x z ltac:(lia) H2 Dz ltac:(lia))). } lia.
Qed.
Lemma below_near1 : forall t a a', 1 <= t <= 2 ^ 17 -> Forall2 (tile_below t) a a' ->
  Forall (fun x => Z.abs x <= 2 ^ 18 + 2) a -> Forall (fun x => Z.abs x <= KB) a'.
Proof. intros t a a' Ht H. induction H as [|x y a b H _ IH]; intro N; constructor; inversion N; subst; auto. destruct H. unfold KB. lia. Qed.
Lemma above_near1 : forall t a a', 1 <= t <= 2 ^ 17 -> Forall2 (tile_above t) a a' ->
  Forall (fun x => Z.abs x <= 2 ^ 18 + 2) a -> Forall (fun x => Z.abs x <= KB) a'.
Proof. intros t a a' Ht H. induction H as [|x y a b H _ IH]; intro N; constructor; inversion N; subst; auto. destruct H. unfold KB. lia. Qed.

Lemma joined_facts : forall d cb rq, cb_ordered d cb -> cb_ordered d rq -> cb_near KB cb -> cb_near KB rq ->
  cb_ordered d (joined d cb rq) /\ cb_near KB (joined d cb rq) /\ sub_cells rq (joined d cb rq) /\
  (cb = cb_empty d \/ sub_cells cb (joined d cb rq)).
Proof.
  intros d cb rq (L1 & L2 & O) (M1 & M2 & P) [N1 N2] [K1 K2]. unfold joined. destruct (cb_eqb cb (cb_empty d)) eqn:E.
  - apply cb_eqb_true in E. repeat split; try assumption; auto.
    + clear -M1. revert M1. generalize (cmin rq). intros l _. induction l; constructor; auto. lia.
    + clear -M1. generalize (cmax rq). intros l. induction l; constructor; auto. lia.
  - destruct (map2_le (cmin cb) (cmin rq) ltac:(congruence)) as (A1 & A2 & _ & _).
    destruct (map2_le (cmax cb) (cmax rq) ltac:(congruence)) as (_ & _ & A3 & A4).
    split; [|split; [|split; [|right]]].
    + repeat split; cbn [cmin cmax]; rewrite ?map2_length by congruence; try assumption.
      eapply Zle_trans2; [exact A1|]. eapply Zle_trans2; [exact O|exact A3].
    + split; cbn [cmin cmax]; apply map2_near; try assumption; intros x y; lia.
    + split; assumption.
    + split; assumption.
Qed.

Lemma empty_no_cells : forall d c, (d = 2 \/ d = 3)%nat ->
  ~ in_range (map2 Z.sub (cmax (cb_empty d)) (cmin (cb_empty d))) c.
Proof. intros d c [-> | ->] H; cbn in H; inversion H; subst; lia. Qed.

Lemma shift_zero : forall (c s : list Z), length c = length s -> map2 Z.add c (map2 Z.sub s s) = c /\ map2 Z.sub c (map2 Z.sub s s) = c.
Proof.
  induction c as [|x c IH]; intros [|y s] L; cbn in L; try discriminate; [auto|].
  destruct (IH s ltac:(lia)) as [E1 E2]. cbn [map2]. split; f_equal; auto; lia.
Qed.

Lemma bounds_fields : forall d r cb, cb_ordered d cb ->
  length (bmin (bounds_from_cell_bounds cb r)) = d /\ length (bmax (bounds_from_cell_bounds cb r)) = d.
Proof. intros d r cb H. rewrite (bfc_map d) by assumption. destruct H as (L1 & L2 & _). cbn [bmin bmax]. now rewrite !map_length. Qed.

Section Expand.
Context {A : Type}.
Implicit Types g : grid_map A.

Lemma expand_spec : forall d r t g cb b v, map_range d r t -> wf d r t g cb -> request_ok d r b ->
  exists db cb' g', bounds_discretized b r true = Ret db /\
  let rq := mkCB (map (wc r) (bmin db)) (map (wc r) (bmax db)) in
  Forall2 (tile_below t) (cmin (joined d cb rq)) (cmin cb') /\
  Forall2 (tile_above t) (cmax (joined d cb rq)) (cmax cb') /\
  gm_expand_bounds g b v = Ret g' /\ (cb' = cb -> g' = g) /\ wf d r t g' cb' /\
  gm_track_changes g' = gm_track_changes g /\ gm_changed_cells g' = gm_changed_cells g /\
  (let shift := map2 Z.sub (cmin cb) (cmin cb') in
   (forall c, in_range (nd_shape (gm_data g)) c ->
      nd_get (gm_data g') (map2 Z.add c shift) = nd_get (gm_data g) c) /\
   (forall c, in_range (nd_shape (gm_data g')) c -> ~ in_range (nd_shape (gm_data g)) (map2 Z.sub c shift) ->
      nd_get (gm_data g') c = Ret v)).
Proof.
  intros d r t g cb b v (Hd & HR & Ht) W RQ. destruct W as [Wr Wt Wo Wa Wn Wb Ws Wst].
  pose proof (res_ok_pos r HR) as P.
  destruct (bounds_discretized_spec d b r true (proj1 HR) P (proj1 RQ)) as (db & Edb & _).
  destruct (disc_near d r b db HR RQ Edb) as (Od & Sb & Nr & Or).
  set (rq := mkCB (map (wc r) (bmin db)) (map (wc r) (bmax db))) in *.
  assert (Orq : cb_ordered d rq).
  { destruct Od as (D1 & D2 & _). unfold rq; repeat split; cbn [cmin cmax]; rewrite ?map_length; assumption. }
  assert (Nrq : cb_near KB rq) by (eapply near_weaken; [exact Nr|unfold KB; lia]).
  destruct (joined_facts d cb rq Wo Orq Wn Nrq) as (Oj & Nj & Sj & Ej).
  destruct (bounds_fields d r cb Wo) as [LB1 LB2].
  destruct (wf_cells d r cb HR Wo Wn) as [C1 C2].
  pose proof (bfc_ordered d r cb HR Wo Wn) as OB.
  (* the box of cells before rounding to tiles *)
  assert (J : cb_from_bounds (bounds_enclosing (gm_bounds g) db) r = joined d cb rq).
  { rewrite Wb. destruct Od as (D1 & D2 & DO). destruct (cb_eqb cb (cb_empty d)) eqn:E.
    - unfold joined. rewrite E. apply cb_eqb_true in E. 
      rewrite (enclosing_empty d) by (try assumption; now apply (wf_zero d r cb HR Wo Wn)).
      now apply (from_bounds_map d).
    - unfold joined. rewrite E. assert (NZ : ~ is_zero_box (bounds_from_cell_bounds cb r)).
      { intro Q. apply (wf_zero d r cb HR Wo Wn) in Q. apply cb_eqb_true in Q. congruence. }
      destruct (ordered_no_nan d _ OB) as [NN1 NN2]. destruct (ordered_no_nan d db) as [DN1 DN2]; [repeat split; assumption|].
      unfold bounds_enclosing. rewrite LB1.
      destruct (bounds_eqb (bounds_from_cell_bounds cb r) (bounds_empty d)) eqn:F; [apply zero_box_iff in F; try assumption; contradiction|].
      rewrite (from_bounds_map d) by (try assumption; cbn [bmin bmax]; rewrite map2_length; congruence).
      cbn [bmin bmax]. rewrite map_wc_min, map_wc_max by assumption. rewrite C1, C2. reflexivity. }
  (* rounded to tiles *)
  assert (TI : exists cb', cb_discretized (joined d cb rq) t = Ret cb').
  { apply cb_discretized_ok; [lia|]. destruct Nj as [J1 J2]. apply Forall_app.
    split; (eapply Forall_impl; [|eassumption]); cbv beta; intros; unfold KB, isize_min, isize_max in *; lia. }
  destruct TI as [cb' Ecb'].
  assert (TI2 := Ecb'). apply cb_discretized_iff in TI2;
    [|unfold isize_max; lia|destruct Nj as [J1 J2]; eapply Forall_impl; [|exact J1]; cbv beta; intros; unfold KB, isize_min, isize_max in *; lia
     |destruct Nj as [J1 J2]; eapply Forall_impl; [|exact J2]; cbv beta; intros; unfold KB, isize_min, isize_max in *; lia].
  destruct TI2 as (T1 & T2 & _ & _).
  destruct (below_le _ _ _ T1) as [B1 D1]. destruct (above_le _ _ _ T2) as [B2 D2].
  assert (Oc : cb_ordered d cb').
  { destruct Oj as (J1 & J2 & J3). split; [|split].
    - rewrite <- J1. symmetry. exact (Forall2_length _ _ _ T1).
    - rewrite <- J2. symmetry. exact (Forall2_length _ _ _ T2).
    - eapply Zle_trans2; [exact B1|]. eapply Zle_trans2; [exact J3|exact B2]. }
  assert (Nc : cb_near KB cb').
  { destruct Wo as (W1 & W2 & _), Orq as (R1 & R2 & _), Wn as [Wn1 Wn2], Wa as [Wa1 Wa2], Nr as [Nr1 Nr2].
    unfold joined in T1, T2. destruct (cb_eqb cb (cb_empty d)).
    - split; [exact (below_near1 t _ _ Ht T1 Nr1)|exact (above_near1 t _ _ Ht T2 Nr2)].
    - cbn [cmin cmax] in T1, T2. split.
      + apply (below_near t _ _ _ Ht T1); try assumption. congruence.
      + apply (above_near t _ _ _ Ht T2); try assumption. congruence. }
  assert (Ecb : cb_from_bounds (gm_bounds g) r = cb).
  { rewrite Wb. apply (cell_bounds_round_trip d); try assumption; try (apply Wo);
    destruct (near_weaken _ (2 ^ 20) _ Wn ltac:(unfold KB; lia)); assumption. }
  exists db, cb'. 
  assert (EX : exists g', gm_expand_bounds g b v = Ret g' /\ (cb' = cb -> g' = g) /\ wf d r t g' cb' /\
     gm_track_changes g' = gm_track_changes g /\ gm_changed_cells g' = gm_changed_cells g /\
     (let shift := map2 Z.sub (cmin cb) (cmin cb') in
      (forall c, in_range (nd_shape (gm_data g)) c -> nd_get (gm_data g') (map2 Z.add c shift) = nd_get (gm_data g) c) /\
      (forall c, in_range (nd_shape (gm_data g')) c -> ~ in_range (nd_shape (gm_data g)) (map2 Z.sub c shift) ->
         nd_get (gm_data g') c = Ret v))).
  { unfold gm_expand_bounds. rewrite Wr, Edb. cbn [obind]. rewrite J, Wt, Ecb'. cbn [obind]. rewrite Ecb.
    destruct (cb_eqb cb' cb) eqn:EQ.
    { apply cb_eqb_true in EQ. subst cb'. exists g. split; [reflexivity|]. split; [reflexivity|].
      split; [now constructor|]. split; [reflexivity|]. split; [reflexivity|]. cbv zeta.
      assert (LC : forall c, in_range (nd_shape (gm_data g)) c -> length c = length (cmin cb)).
      { intros c H. rewrite <- (Forall2_length _ _ _ H), Ws. destruct Wo as (w1 & w2 & _). rewrite map2_length; congruence. }
      split; intros c H.
      - rewrite (proj1 (shift_zero c (cmin cb) (LC c H))). reflexivity.
      - intro N. exfalso. apply N. rewrite (proj2 (shift_zero c (cmin cb) (LC c H))). assumption. }
    destruct (nwb_ok d r cb' v ltac:(lia) HR Oc (near_weaken KB (2 ^ 19) cb' Nc ltac:(unfold KB; lia))) as (a & Ea & Ka & Sa & Ga).
    rewrite Ea. cbn [obind].
    assert (NE : cb' = cb -> False).
    { intro Q. apply cb_eqb_true in Q. congruence. }
    assert (LBg : length (bmin (gm_bounds g)) = d) by (rewrite Wb; assumption).
    rewrite LBg. rewrite Wb.
    destruct (bounds_eqb (bounds_from_cell_bounds cb r) (bounds_empty d)) eqn:Z0.
    - cbn [obind]. apply zero_box_iff in Z0; try assumption. apply (wf_zero d r cb HR Wo Wn) in Z0.
      eexists. split; [reflexivity|]. split; [intro Q; destruct (NE Q)|]. split; [now constructor|].
      split; [reflexivity|]. split; [reflexivity|]. cbn [gm_data]. cbv zeta. split.
      + intros c H. exfalso. rewrite Ws, Z0 in H. now apply (empty_no_cells d c Hd) in H.
      + intros c H _. now apply Ga.
    - destruct Ej as [Ej|Ej].
      { exfalso. apply (wf_zero d r cb HR Wo Wn) in Ej. apply (proj2 (zero_box_iff _ d LB1 LB2)) in Ej. congruence. }
      assert (S' : sub_cells cb cb').
      { destruct Ej as [E1 E2]. split; eapply Zle_trans2; eassumption. }
      destruct S' as [S1 S2].
      assert (W40 : forall c, cb_near KB c -> Forall (fun x => Z.abs x <= 2 ^ 40) (cmin c) /\ Forall (fun x => Z.abs x <= 2 ^ 40) (cmax c)).
      { intros c Hc. exact (near_weaken _ (2 ^ 40) _ Hc ltac:(unfold KB; lia)). }
      destruct (W40 cb Wn) as [X1 X2]. destruct (W40 cb' Nc) as [X3 X4].
      rewrite (cell_sub_ok (cmin cb) (cmin cb')), (cell_sub_ok (cmax cb) (cmin cb)) by assumption. cbn [obind].
      set (off := map2 Z.sub (cmin cb) (cmin cb')). 
      assert (OP : Forall (fun o => 0 <= o <= 2 * KB) off).
      { unfold off. destruct Wn as [n1 _], Nc as [m1 _]. clear -S1 n1 m1. revert n1 m1. induction S1; intros n1 m1; cbn [map2]; constructor; inversion n1; inversion m1; subst; auto. unfold KB in *. lia. }
      assert (AS : forallb (fun o => 0 <=? o) (firstn 2 off) = true).
      { apply forallb_forall. intros x Hx. apply Z.leb_le. rewrite Forall_forall in OP. 
        assert (In x off) by (rewrite <- (firstn_skipn 2 off); apply in_or_app; now left). apply OP in H. lia. }
      rewrite AS. cbn [oassert obind]. rewrite <- Ws.
      assert (LS : length off = length (nd_shape (gm_data g))).
      { rewrite Ws. unfold off. destruct Wo as (w1 & w2 & _), Oc as (o1 & o2 & _). rewrite !map2_length; congruence. }
      assert (SP : Forall (fun x => Z.abs x <= 2 ^ 40) (nd_shape (gm_data g))).
      { rewrite Ws. destruct Wo as (w1 & w2 & w3), Wn as [n1 n2]. clear -w3 n1 n2. revert n1 n2. induction w3; intros n1 n2; cbn [map2]; constructor; inversion n1; inversion n2; subst; auto. unfold KB in *. lia. }
      rewrite cell_add_ok; [|assumption|eapply Forall_impl; [|exact OP]; cbv beta; unfold KB; lia].
      cbn [obind].
      destruct (slice_assign_ok a (gm_data g) off Ka Wst) as (q & Eq & Kq & Sq & G1 & G2).
      { rewrite Sa, Ws. unfold off. destruct Wo as (w1 & w2 & w3), Oc as (o1 & o2 & o3).
        assert (LL1 : length (cmin cb) = length (cmin cb')) by congruence.
        clear -S1 S2 LL1. revert S2. generalize (cmax cb) (cmax cb'). clear LL1. induction S1 as [|x y l m H S1 IH]; intros u w S2.
        - destruct S2; cbn; constructor.
        - destruct S2 as [|x' y' l' m' H' S2]; cbn [map2 combine]; [constructor|]. cbn [map2]. constructor; [cbn [fst snd]; lia|]. now apply IH. }
      { assumption. }
      replace (repeat 0 d) with (repeat 0 (length off)).
      2: { f_equal. rewrite LS, Ws. destruct Wo as (w1 & w2 & _). rewrite map2_length; congruence. }
      rewrite Eq. cbn [obind]. eexists. split; [reflexivity|]. split; [intro Q; destruct (NE Q)|].
      split; [constructor; try assumption; try reflexivity; [now split|cbn [gm_data]; congruence]|]. split; [reflexivity|]. split; [reflexivity|]. cbn [gm_data]. cbv zeta. split.
      + intros c H. now apply G1.
      + intros c H N. rewrite G2 by (rewrite <- ?Sq; assumption). apply Ga. now rewrite <- Sq. }
  destruct EX as (g' & E1 & E2). exists g'. cbv zeta. tauto.
Qed.
End Expand.
