(** Histories of a grid map. *)
From Coq Require Import ZArith List Bool Reals Lra Lia Psatz.
From Flocq Require Import Core BinarySingleNaN.
From Verif Require Import Base F32 FloatFacts RoundError Arith Geom NdArray GridMap Spec SpecMap ConverterProofs GeomProofs BoundsProofs NdProofs GridProofs ExpandProofs UnalignedProofs.
Open Scope Z_scope.

(** ** Rounded-out corners are close to cell corners *)
Section Corner.
Local Open Scope R_scope.
Context (r : f32) (HR : res_ok r).
Lemma bp22 : bp (-22) = / 4194304. Proof. unfold bpow; simpl; lra. Qed.

Lemma wc_close : forall (x : f32) n, is_finite x = true -> (Z.abs n <= 2 ^ 20)%Z ->
  Rabs (B2R x - IZR n * B2R r) <= / 8 * B2R r -> wc r x = n.
Proof.
  intros x n F Hn H. pose proof (res_ok_pos r HR) as P. destruct HR as [Fr Hr]. unfold real in Hr.
  apply ccp_close; try assumption; [reflexivity|lia|]. simpl (B2R f0). rewrite Rminus_0_r.
  assert (Rabs (IZR n) <= 1048576). { rewrite <- abs_IZR. change 1048576 with (IZR (2 ^ 20)). now apply IZR_le. }
  assert (Rabs (B2R x - IZR n * B2R r) / B2R r <= / 8).
  { apply Rmult_le_reg_r with (B2R r); [assumption|]. unfold Rdiv. rewrite Rmult_assoc, Rinv_l, Rmult_1_r by lra. lra. }
  pose proof bp_m150_u. unfold u32 in *. lra.
Qed.

(** The quotient and its rounding for a coordinate in range. *)
Lemma quotient : forall v : f32, within_cells (2 ^ 18) r v ->
  let c := fdiv v r in is_finite c = true /\ Rabs (B2R c) <= 262145 /\
  B2R c = rnd (B2R v / B2R r) /\ Rabs (B2R c * B2R r - B2R v) <= / 60 * B2R r.
Proof.
  intros v [Fv Wv] c. pose proof (res_ok_pos r HR) as P. destruct HR as [Fr Hr]. unfold real in *.
  change (IZR (2 ^ 18)) with 262144 in Wv. set (x := B2R v / B2R r).
  assert (Ex : B2R v = x * B2R r) by (unfold x; field; lra).
  assert (Hx : Rabs x <= 262144).
  { apply Rmult_le_reg_r with (B2R r); [assumption|]. rewrite Ex, Rabs_mult, (Rabs_pos_eq (B2R r)) in Wv by lra. exact Wv. }
  pose proof (rnd_err x) as E. pose proof bp_m150_u as B.
  assert (E' : Rabs (rnd x - x) <= / 60) by (unfold u32 in *; lra).
  assert (HX : Rabs (rnd x) <= 262145).
  { replace (rnd x) with (rnd x - x + x) by ring. eapply Rle_trans; [apply Rabs_triang|]. lra. }
  destruct (fdiv_fin v r Fv Fr ltac:(lra)) as [Fc Ec].
  { fold x. eapply Rle_lt_trans; [exact HX|]. apply Rlt_le_trans with (bp 20); [|apply bpow_le; lia]. change (bp 20) with 1048576. lra. }
  fold x in Ec. fold c in Fc, Ec. split; [assumption|]. split; [now rewrite Ec|]. split; [exact Ec|].
  rewrite Ec, Ex. replace (rnd x * B2R r - x * B2R r) with ((rnd x - x) * B2R r) by ring.
  rewrite Rabs_mult, (Rabs_pos_eq (B2R r)) by lra. apply Rmult_le_compat_r; lra.
Qed.

Lemma int_abs : forall n (x : R) b, Rabs (x - IZR n) <= 1 -> Rabs x <= IZR b -> (Z.abs n <= b + 1)%Z.
Proof.
  intros n x b H1 H2. apply le_IZR. rewrite abs_IZR, plus_IZR. replace (IZR n) with (x - (x - IZR n)) by ring.
  eapply Rle_trans; [apply Rabs_triang|]. rewrite Rabs_Ropp. lra.
Qed.

(** A product close to a multiple. *)
Lemma mul_int : forall (x : f32) n, is_finite x = true -> B2R x = IZR n -> (Z.abs n <= 262147)%Z ->
  is_finite (fmul x r) = true /\ Rabs (B2R (fmul x r) - IZR n * B2R r) <= / 60 * B2R r.
Proof.
  intros x n F E N. pose proof (res_ok_pos r HR) as P. destruct HR as [Fr Hr]. unfold real in Hr.
  assert (NN : Rabs (IZR n) <= 262147) by (rewrite <- abs_IZR; now apply IZR_le).
  assert (A : Rabs (IZR n * B2R r) <= 262147 * B2R r).
  { rewrite Rabs_mult, (Rabs_pos_eq (B2R r)) by lra. apply Rmult_le_compat_r; lra. }
  destruct (fmul_fin x r F Fr) as [Fm Em].
  { rewrite E. apply rnd_abs_lt_128. eapply Rle_trans; [exact A|].
    change 127%Z with (100 + 27)%Z. rewrite bpow_plus. change (bp 27) with 134217728. pose proof (bpow_gt_0 radix2 100). nra. }
  split; [assumption|]. rewrite Em, E. pose proof (rnd_err (IZR n * B2R r)). pose proof (bp_m150 (B2R r) (proj1 Hr)).
  unfold u32 in *. lra.
Qed.

Lemma releq_int : forall v : f32, within_cells (2 ^ 18) r v -> relative_eq (fdiv v r) (fround (fdiv v r)) = true ->
  let n := ZnearestA (B2R (fdiv v r)) in (Z.abs n <= 262146)%Z /\ Rabs (B2R v - IZR n * B2R r) <= / 10 * B2R r.
Proof.
  intros v W RE n. destruct (quotient v W) as (Fc & Bc & Ec & Dc). destruct (fround_fin _ Fc) as [Fn En]. fold n in En.
  pose proof (res_ok_pos r HR) as P. pose proof (relative_eq_close _ _ Fc Fn RE) as C. rewrite En, bp22 in C.
  assert (N : (Z.abs n <= 262146)%Z).
  { apply (int_abs n (B2R (fdiv v r)) 262145); [|assumption]. 
    pose proof (Znearest_half (Z.leb 0) (B2R (fdiv v r))) as Hh. fold n in Hh. lra. }
  split; [assumption|].
  assert (NN : Rabs (IZR n) <= 262146) by (rewrite <- abs_IZR; now apply IZR_le).
  assert (MM : Rmax 1 (Rmax (Rabs (IZR n)) (Rabs (B2R (fdiv v r)))) <= 262146).
  { apply Rmax_lub; [lra|]. apply Rmax_lub; lra. }
  assert (C' : Rabs (B2R (fdiv v r) - IZR n) <= / 15) by lra.
  replace (B2R v - IZR n * B2R r) with ((B2R (fdiv v r) - IZR n) * B2R r - (B2R (fdiv v r) * B2R r - B2R v)) by ring.
  eapply Rle_trans; [apply Rabs_triang|]. rewrite Rabs_Ropp, Rabs_mult, (Rabs_pos_eq (B2R r)) by lra. nra.
Qed.

Lemma disc_min_cell : forall v : f32, within_cells (2 ^ 18) r v ->
  let m := fdisc_min1 r v in
  is_finite m = true /\ Rabs (B2R m - IZR (wc r m) * B2R r) <= / 8 * B2R r.
Proof.
  intros v W. cbv zeta. pose proof (res_ok_pos r HR) as P.
  destruct (quotient v W) as (Fc & Bc & Ec & Dc). unfold fdisc_min1. cbv zeta.
  destruct (relative_eq _ _) eqn:RE.
  - destruct (releq_int v W RE) as [N C]. destruct W as [Fv Wv]. split; [assumption|].
    rewrite (wc_close v (ZnearestA (B2R (fdiv v r))) Fv (ltac:(lia)) (ltac:(lra))). lra.
  - destruct (ffloor_fin _ Fc) as [Ff Ef].
    assert (N : (Z.abs (Zfloor (B2R (fdiv v r))) <= 262146)%Z).
    { apply (int_abs _ (B2R (fdiv v r)) 262145); [|assumption].
      pose proof (Zfloor_lb (B2R (fdiv v r))). pose proof (Zfloor_ub (B2R (fdiv v r))). rewrite Rabs_pos_eq; lra. }
    destruct (mul_int _ _ Ff Ef ltac:(lia)) as [Fm Em]. split; [assumption|].
    rewrite (wc_close _ (Zfloor (B2R (fdiv v r))) Fm (ltac:(lia)) (ltac:(lra))). lra.
Qed.

Lemma disc_max_cell : forall v : f32, within_cells (2 ^ 18) r v ->
  let m := fdisc_max1 r true v in
  is_finite m = true /\ Rabs (B2R m - IZR (wc r m) * B2R r) <= / 8 * B2R r /\
  (forall k, (Z.abs k <= 2 ^ 20)%Z -> IZR k * B2R r <= B2R v -> (k + 1 <= wc r m)%Z).
Proof.
  intros v W. cbv zeta. pose proof (res_ok_pos r HR) as P.
  destruct (quotient v W) as (Fc & Bc & Ec & Dc).
  assert (KK : forall k, (Z.abs k <= 2 ^ 20)%Z -> IZR k * B2R r <= B2R v -> IZR k <= B2R (fdiv v r)).
  { intros k Hk H. rewrite Ec. destruct (f32_of_Z_exact k ltac:(lia)) as [Fk Ek]. rewrite <- Ek, <- (rnd_float (f32_of_Z k)).
    apply rnd_le. rewrite Ek. apply Rmult_le_reg_r with (B2R r); [assumption|]. unfold Rdiv. rewrite Rmult_assoc, Rinv_l, Rmult_1_r by lra. exact H. }
  unfold fdisc_max1. cbv zeta. destruct (relative_eq _ _) eqn:RE.
  - destruct (releq_int v W RE) as [N C]. set (n := ZnearestA (B2R (fdiv v r))) in *. destruct W as [Fv Wv].
    destruct HR as [Fr Hr]. unfold real in *. change (IZR (2 ^ 18)) with 262144 in Wv.
    assert (A : Rabs (B2R v + B2R r) <= 262145 * B2R r).
    { eapply Rle_trans; [apply Rabs_triang|]. rewrite (Rabs_pos_eq (B2R r)) by lra. lra. }
    destruct (fadd_fin v r Fv Fr) as [Fs Es].
    { apply rnd_abs_lt_128. eapply Rle_trans; [exact A|].
      change 127%Z with (100 + 27)%Z. rewrite bpow_plus. change (bp 27) with 134217728. pose proof (bpow_gt_0 radix2 100). nra. }
    assert (D : Rabs (B2R (fadd v r) - IZR (n + 1) * B2R r) <= / 8 * B2R r).
    { rewrite Es, plus_IZR. pose proof (rnd_add_rel v r) as Q.
      replace (rnd (B2R v + B2R r) - (IZR n + 1) * B2R r) with ((rnd (B2R v + B2R r) - (B2R v + B2R r)) + (B2R v - IZR n * B2R r)) by ring.
      eapply Rle_trans; [apply Rabs_triang|]. unfold u32 in *. lra. }
    split; [assumption|].
    assert (WE : wc r (fadd v r) = (n + 1)%Z) by (apply wc_close; [assumption|lia|exact D]).
    rewrite WE. split; [exact D|]. intros k Hk H. specialize (KK k Hk H).
    assert (k <= n)%Z; [|lia]. unfold n. rewrite <- (Zrnd_IZR (Znearest (Z.leb 0)) k). now apply (@Zrnd_le _ valid_rnd_NA).
  - destruct (quotient_between v r (proj1 W) (proj1 HR) P RE) as (_ & _ & CF).
    destruct (fceil_fin _ Fc) as [Ff Ef]. rewrite CF in Ef.
    assert (N : (Z.abs (Zfloor (B2R (fdiv v r))) <= 262146)%Z).
    { apply (int_abs _ (B2R (fdiv v r)) 262145); [|assumption].
      pose proof (Zfloor_lb (B2R (fdiv v r))). pose proof (Zfloor_ub (B2R (fdiv v r))). rewrite Rabs_pos_eq; lra. }
    destruct (mul_int _ _ Ff Ef ltac:(lia)) as [Fm Em]. split; [assumption|].
    rewrite (wc_close _ (Zfloor (B2R (fdiv v r)) + 1) Fm (ltac:(lia)) (ltac:(lra))).
    split; [lra|]. intros k Hk H. specialize (KK k Hk H).
    assert (k <= Zfloor (B2R (fdiv v r)))%Z by (rewrite <- (Zfloor_IZR k); now apply Zfloor_le). lia.
Qed.

(** Index of a coordinate relative to a corner. *)
Lemma index_near : forall (p o : f32) k, is_finite p = true -> Rabs (B2R p) <= 262146 * B2R r ->
  (Z.abs k <= KB)%Z -> at_cell r k o ->
  Rabs (IZR (cell_coord_from_point_coord F32A p o r) - (B2R p / B2R r - IZR k)) <= 7 / 10.
Proof.
  intros p o k Fp Hp Hk [Fo Ho]. pose proof (res_ok_pos r HR) as P. unfold real in Ho. change (bpow radix2 (-24)) with (/ 16777216) in Ho.
  assert (NN : Rabs (IZR k) <= 393218) by (rewrite <- abs_IZR; unfold KB in Hk; now apply IZR_le).
  assert (Ho' : Rabs (B2R o - IZR k * B2R r) <= / 40 * B2R r) by nra.
  assert (Hd : Rabs (B2R p - B2R o) <= 700000 * B2R r).
  { replace (B2R p - B2R o) with (B2R p - ((B2R o - IZR k * B2R r) + IZR k * B2R r)) by ring.
    eapply Rle_trans; [apply Rabs_triang|]. rewrite Rabs_Ropp.
    assert (Rabs ((B2R o - IZR k * B2R r) + IZR k * B2R r) <= / 40 * B2R r + 393218 * B2R r).
    { eapply Rle_trans; [apply Rabs_triang|]. rewrite Rabs_mult, (Rabs_pos_eq (B2R r)) by lra. nra. }
    lra. }
  pose proof (nearest1 p o r HR Fp Fo) as N. cbv zeta in N. unfold real in N. rewrite bp22 in N.
  assert (Q : Rabs (B2R p - B2R o) <= IZR (2 ^ 26) * B2R r).
  { eapply Rle_trans; [exact Hd|]. apply Rmult_le_compat_r; [lra|]. change (2 ^ 26)%Z with 67108864%Z. lra. }
  specialize (N Q). set (i := cell_coord_from_point_coord F32A p o r) in *.
  apply Rmult_le_reg_r with (B2R r); [assumption|].
  rewrite <- (Rabs_pos_eq (B2R r)) at 2 by lra. rewrite <- Rabs_mult.
  replace ((IZR i - (B2R p / B2R r - IZR k)) * B2R r) with ((IZR i * B2R r + B2R o - B2R p) - (B2R o - IZR k * B2R r)) by (field; lra).
  eapply Rle_trans; [apply Rabs_triang|]. rewrite Rabs_Ropp. lra.
Qed.
End Corner.

(** ** Reachable maps satisfy the invariant *)
Section Reach.
Context {A : Type}.
Implicit Types g : grid_map A.

Lemma empty_bounds : forall d r, res_ok r -> bounds_empty d = bounds_from_cell_bounds (cb_empty d) r.
Proof.
  intros d r HR. rewrite (bfc_map d).
  2:{ unfold cb_ordered, cb_empty, cell_origin. cbn [cmin cmax]. rewrite repeat_length. repeat split; auto. induction d; constructor; auto; lia. }
  unfold bounds_empty, cb_empty, origin, cell_origin. cbn [cmin cmax].
  assert (E : point_coord_from_cell_coord F32A 0 f0 r = f0).
  { unfold point_coord_from_cell_coord. cbn. destruct HR as [F H]. unfold real in H.
    assert (0 < B2R r)%R by (pose proof (bpow_gt_0 radix2 (-100)); lra).
    destruct r as [s|s| |s m e b]; try discriminate; simpl in *; try lra.
    destruct s; [|reflexivity]. exfalso. 
    assert (F2R (Float radix2 (Z.neg m) e) < 0)%R by (apply F2R_lt_0; reflexivity). unfold F2R in *. simpl in *. lra. }
  assert (R : map (fun k : Z => point_coord_from_cell_coord F32A k f0 r) (repeat 0 d) = repeat f0 d).
  { clear -E. induction d; cbn [repeat map]; [reflexivity|]. f_equal; [exact E|exact IHd]. }
  unfold point, cell in *. rewrite R. reflexivity.
Qed.

Lemma zero_ordered : forall d t, cb_ordered d (cb_empty d) /\ tile_aligned t (cb_empty d) /\ cb_near KB (cb_empty d).
Proof.
  intros d t. unfold cb_ordered, tile_aligned, cb_near, cb_empty, cell_origin. cbn [cmin cmax]. rewrite repeat_length.
  assert (H : forall P : Z -> Prop, P 0 -> Forall P (repeat 0 d)) by (intros P H; induction d; cbn [repeat]; constructor; auto).
  assert (Forall2 Z.le (repeat 0 d) (repeat 0 d)) by (clear; induction d; cbn [repeat]; constructor; auto; lia).
  repeat split; auto; apply H; try apply Z.divide_0_r; unfold KB; simpl; lia.
Qed.

Lemma wf_new : forall d r t cb v g, map_range d r t -> cb_ordered d cb -> tile_aligned t cb -> cb_near KB cb ->
  gm_new r (bounds_from_cell_bounds cb r) t v = Ret g ->
  wf d r t g cb /\ gm_track_changes g = false /\ gm_changed_cells g = [] /\
  (forall c, in_range (nd_shape (gm_data g)) c -> gm_get g c = Ret v).
Proof.
  intros d r t cb v g (Hd & HR & Ht) O T N H. 
  destruct (new_aligned d r t cb v ltac:(lia) HR O (near_weaken _ (2 ^ 19) _ N ltac:(unfold KB; lia))) as (g' & E & S & St & G).
  assert (g' = g) by congruence. subst g'.
  destruct (gm_new_storage _ _ _ _ _ H) as (_ & _ & _ & B & R' & T' & K & C).
  split; [now constructor|]. auto.
Qed.

Lemma set_storage : forall g c v g', storage_ok (gm_data g) -> gm_set g c v = Ret g' ->
  storage_ok (gm_data g') /\ nd_shape (gm_data g') = nd_shape (gm_data g) /\ gm_bounds g' = gm_bounds g /\
  gm_resolution g' = gm_resolution g /\ gm_tile_size g' = gm_tile_size g.
Proof.
  intros g c v g' S H. unfold gm_set in H. destruct (nd_set (gm_data g) (to_ndindex c) v) as [a| |] eqn:E; try discriminate.
  cbn [obind] in H. injection H as <-. cbn [gm_data gm_bounds gm_resolution gm_tile_size].
  destruct (set_get _ _ _ _ S E) as (S' & Sh & _). auto.
Qed.

Lemma wf_same : forall d r t g g' cb, wf d r t g cb -> storage_ok (gm_data g') ->
  nd_shape (gm_data g') = nd_shape (gm_data g) -> gm_bounds g' = gm_bounds g ->
  gm_resolution g' = gm_resolution g -> gm_tile_size g' = gm_tile_size g -> wf d r t g' cb.
Proof. intros d r t g g' cb [] S E1 E2 E3 E4. constructor; congruence. Qed.

Lemma wf_of_reachable : forall d r t g, map_range d r t -> reachable d r t g -> exists cb, wf d r t g cb.
Proof.
  intros d r t g M H. induction H as [v g H|cb v g O T N H|b g b' v g' RB B RQ H NE|g b v g' _ [cb W] RQ H|g c v g' _ [cb W] H|g x _ [cb W]|g _ [cb W]|g l _ [cb W]].
  - destruct (zero_ordered d t) as (O & T & N). rewrite (empty_bounds d r) in H by apply M.
    exists (cb_empty d). now apply (wf_new _ _ _ _ v _ M O T N).
  - exists cb. apply (wf_new _ _ _ _ v _ M O T); [|assumption]. apply (near_weaken (2 ^ 18)); [assumption|unfold KB; lia].
  - destruct (grown_wf d r t b g b' v g' M RB B RQ H) as [E|W]; [contradiction|exact W].
  - destruct (expand_spec d r t g cb b v M W RQ) as (db & cb' & g'' & _ & _ & _ & E & _ & W' & _).
    exists cb'. congruence.
  - exists cb. destruct (set_storage g c v g' (wf_storage _ _ _ _ _ W) H) as (S & E1 & E2 & E3 & E4).
    now apply (wf_same d r t g).
  - exists cb. now apply (wf_same d r t g); try reflexivity; [|apply W].
  - exists cb. now apply (wf_same d r t g); try reflexivity; [|apply W].
  - exists cb. now apply (wf_same d r t g); try reflexivity; [|apply W].
Qed.

Lemma at_cells : forall r l, res_ok r -> Forall (fun x => Z.abs x <= 2 ^ 20) l ->
  Forall2 (at_cell r) l (map (fun k => point_coord_from_cell_coord F32A k f0 r) l).
Proof.
  intros r l HR H. induction H as [|k l Hk H IH]; cbn [map]; constructor; [|assumption].
  destruct (pcc0 k r HR ltac:(lia)) as [F E]. split; assumption.
Qed.

Lemma wf_covers : forall d r t g cb, map_range d r t -> wf d r t g cb -> covers_cells d r t g cb.
Proof.
  intros d r t g cb (Hd & HR & Ht) W. destruct W as [Wr Wt Wo Wa Wn Wb Ws Wst].
  destruct (near_weaken _ (2 ^ 20) _ Wn ltac:(unfold KB; lia)) as [N1 N2].
  constructor; try assumption.
  - apply (near_weaken KB); [assumption|unfold KB; lia].
  - rewrite Wb, (bfc_map d) by assumption. cbn [bmin]. now apply at_cells.
  - rewrite Wb, (bfc_map d) by assumption. cbn [bmax]. now apply at_cells.
Qed.

Lemma at_cell_unique : forall r l l' p, res_ok r -> Forall (fun x => Z.abs x <= 2 ^ 19) l -> Forall (fun x => Z.abs x <= 2 ^ 19) l' ->
  Forall2 (at_cell r) l p -> Forall2 (at_cell r) l' p -> l = l'.
Proof.
  intros r l l' p HR N N' H. revert l' N'. induction H as [|k x l p Hk H IH]; intros l' N' H'; inversion H' as [|k' ? l'' ? Hk' H'']; subst; [reflexivity|].
  inversion N; inversion N'; subst. f_equal; [|now apply IH].
  destruct Hk as [_ E], Hk' as [_ E']. pose proof (res_ok_pos r HR) as P. unfold real in *. change (bpow radix2 (-24)) with (/ 16777216)%R in *.
  assert (B : forall z, Z.abs z <= 2 ^ 19 -> (Rabs (IZR z) <= 524288)%R) by (intros z Hz; rewrite <- abs_IZR; now apply IZR_le).
  pose proof (B k H2). pose proof (B k' H6).
  assert (Rabs (IZR (k - k')) * B2R r < 1 * B2R r)%R.
  { rewrite <- (Rabs_pos_eq (B2R r)) at 1 by lra. rewrite <- Rabs_mult, minus_IZR.
    replace ((IZR k - IZR k') * B2R r)%R with ((B2R x - IZR k' * B2R r) - (B2R x - IZR k * B2R r))%R by ring.
    eapply Rle_lt_trans; [apply Rabs_triang|]. rewrite Rabs_Ropp. nra. }
  apply Rmult_lt_reg_r in H4; [|assumption]. rewrite <- abs_IZR in H4. apply lt_IZR in H4. lia.
Qed.

Lemma covers_unique : forall d r t g cb cb', res_ok r -> covers_cells d r t g cb -> covers_cells d r t g cb' -> cb = cb'.
Proof.
  intros d r t g cb cb' HR [_ _ _ _ [N1 N2] M1 M2 _ _] [_ _ _ _ [N1' N2'] M1' M2' _ _].
  destruct cb as [a b], cb' as [a' b']. cbn [cmin cmax] in *. f_equal.
  - exact (at_cell_unique r _ _ _ HR N1 N1' M1 M1').
  - exact (at_cell_unique r _ _ _ HR N2 N2' M2 M2').
Qed.

Lemma reachable_covers : forall d r t g, map_range d r t -> reachable d r t g ->
  exists cb, covers_cells d r t g cb.
Proof.
  intros d r t g M H. destruct (wf_of_reachable d r t g M H) as [cb W].
  exists cb. now apply wf_covers.
Qed.

Lemma covers_wf : forall d r t g cb, map_range d r t -> reachable d r t g -> covers_cells d r t g cb -> wf d r t g cb.
Proof.
  intros d r t g cb M H C. destruct (wf_of_reachable d r t g M H) as [cb' W].
  rewrite (covers_unique d r t g cb cb' (proj1 (proj2 M)) C (wf_covers _ _ _ _ _ M W)). assumption.
Qed.

(** ** Where the cells of a map are *)
Lemma cells_near : forall d r t g cb c, map_range d r t -> wf d r t g cb -> in_range (nd_shape (gm_data g)) c ->
  near_cell r (map2 Z.add (cmin cb) c) (gm_point_from_cell g c).
Proof.
  intros d r t g cb c M W H. pose proof (wf_covers _ _ _ _ _ M W) as C. destruct M as (_ & HR & _).
  destruct W as [Wr _ (L1 & L2 & O) _ [N1 N2] _ Ws _]. destruct C as [_ _ _ _ _ C1 _ _ _].
  unfold gm_point_from_cell, point_from_cell. rewrite Wr. rewrite Ws in H. unfold near_cell. clear Ws Wr.
  revert C1 H. generalize (bmin (gm_bounds g)). assert (L : length (cmin cb) = length (cmax cb)) by congruence.
  clear L1 L2 t g. revert c. revert O N1 N2 L. generalize (cmin cb) (cmax cb). unfold cell in *. clear cb.
  intros lo hi O. induction O as [|k h lo hi Hk O IH]; intros N1 N2 L c o C H.
  - cbn in H. inversion H; subst. cbn. constructor.
  - inversion C as [|? o1 ? o' Ho C']; subst. cbn [map2] in H. inversion H as [|? i ? c' Hi H']; subst.
    inversion N1; inversion N2; subst. cbn [map2]. constructor; [|apply IH; auto].
    destruct Ho as [Fo Ho]. pose proof (res_ok_pos r HR) as P. destruct HR as [Fr Hr]. unfold real, finite in *. change (bpow radix2 (-24)) with (/ 16777216)%R in Ho.
    unfold KB in *.
    assert (Bk : (Rabs (IZR k) <= 393218)%R) by (rewrite <- abs_IZR; now apply IZR_le).
    assert (Bi : (Rabs (IZR i) <= 786436)%R) by (rewrite <- abs_IZR; apply IZR_le; lia).
    assert (Bo : (Rabs (B2R o1) <= 393219 * B2R r)%R).
    { replace (B2R o1) with ((B2R o1 - IZR k * B2R r) + IZR k * B2R r)%R by ring.
      eapply Rle_trans; [apply Rabs_triang|]. rewrite Rabs_mult, (Rabs_pos_eq (B2R r)) by lra. nra. }
    destruct (pcc_fin i o1 r Fo Fr Hr ltac:(lia) ltac:(lra)) as [Fp Ep]. split; [assumption|].
    rewrite plus_IZR. set (p := point_coord_from_cell_coord F32A i o1 r) in *. unfold u32 in Ep.
    replace (B2R p - (IZR k + IZR i) * B2R r)%R with ((B2R p - (IZR i * B2R r + B2R o1)) + (B2R o1 - IZR k * B2R r))%R by ring.
    eapply Rle_trans; [apply Rabs_triang|].
    assert (Rabs (IZR i) * B2R r <= 786436 * B2R r)%R by (apply Rmult_le_compat_r; lra).
    assert (Rabs (IZR k) * B2R r <= 393218 * B2R r)%R by (apply Rmult_le_compat_r; lra). lra.
Qed.

Lemma map_round_trip : forall d r t g c, map_range d r t -> reachable d r t g -> in_range (nd_shape (gm_data g)) c ->
  gm_cell_from_point g (gm_point_from_cell g c) = c.
Proof.
  intros d r t g c M H I. destruct (wf_of_reachable d r t g M H) as [cb W]. pose proof (wf_covers _ _ _ _ _ M W) as C.
  destruct M as (_ & HR & _). destruct W as [Wr _ (L1 & L2 & O) _ [N1 N2] _ Ws _]. destruct C as [_ _ _ _ _ C1 _ _ _].
  unfold gm_cell_from_point, gm_point_from_cell. rewrite Wr.
  pose proof (Forall2_length _ _ _ C1) as LC. pose proof (Forall2_length _ _ _ I) as LI. rewrite Ws, map2_length in LI by (unfold cell in *; congruence).
  apply round_trip; [assumption|unfold cell in *; congruence| |].
  - rewrite Ws in I. clear - I O N1 N2. revert c I. unfold cell in *. revert N1 N2. induction O as [|a b lo hi Hab O IH]; intros N1 N2 c I.
    + inversion I; constructor.
    + cbn [map2] in I. inversion I; subst. inversion N1; inversion N2; subst. constructor; [unfold KB in *; lia|]. now apply IH.
  - clear - C1 N1 HR. induction C1 as [|k x l p Hk C1 IH]; constructor; inversion N1; subst; [|now apply IH].
    destruct Hk as [F E]. split; [assumption|]. pose proof (res_ok_pos r HR). unfold real in *. change (bpow radix2 (-24)) with (/ 16777216)%R in E.
    assert (Bk : (Rabs (IZR k) <= 393218)%R) by (rewrite <- abs_IZR; unfold KB in *; now apply IZR_le).
    replace (B2R x) with ((B2R x - IZR k * B2R r) + IZR k * B2R r)%R by ring.
    eapply Rle_trans; [apply Rabs_triang|]. rewrite Rabs_mult, (Rabs_pos_eq (B2R r)) by lra. change (IZR (2 ^ 20)) with 1048576%R. nra.
Qed.

(** ** Expansion in terms of world cells *)
Lemma box_range : forall cb w, length (cmin cb) = length (cmax cb) ->
  in_box cb w <-> length w = length (cmin cb) /\ in_range (map2 Z.sub (cmax cb) (cmin cb)) (map2 Z.sub w (cmin cb)).
Proof.
  intros [lo hi] w. unfold in_box, in_range. cbn [cmin cmax]. unfold cell in *. revert hi w.
  induction lo as [|a lo IH]; intros [|b hi] w L; cbn in L; try discriminate.
  - cbn. split.
    + intros [H _]. inversion H; subst. split; [reflexivity|constructor].
    + intros [H _]. destruct w; [|discriminate]. split; constructor.
  - destruct w as [|x w].
    + split; intros [H _]; [inversion H|discriminate].
    + specialize (IH hi w ltac:(lia)). cbn [map2 length]. split.
      * intros [H1 H2]. inversion H1; inversion H2; subst. destruct IH as [IH _]. destruct IH as [E F]; [split; assumption|].
        split; [lia|]. constructor; [lia|assumption].
      * intros [E F]. inversion F; subst. destruct IH as [_ IH]. destruct IH as [G1 G2]; [split; [lia|assumption]|].
        split; constructor; auto; lia.
Qed.
Lemma range_box : forall cb c, length (cmin cb) = length (cmax cb) ->
  in_range (map2 Z.sub (cmax cb) (cmin cb)) c -> in_box cb (map2 Z.add (cmin cb) c) /\ map2 Z.sub (map2 Z.add (cmin cb) c) (cmin cb) = c.
Proof.
  intros [lo hi] c. unfold in_box, in_range. cbn [cmin cmax]. unfold cell in *. revert hi c.
  induction lo as [|a lo IH]; intros [|b hi] c L H; cbn in L; try discriminate; cbn [map2] in H; inversion H; subst.
  - cbn. repeat split; constructor.
  - destruct (IH hi l' ltac:(lia) H4) as [[G1 G2] E]. cbn [map2]. split; [split; constructor; auto; lia|]. f_equal; [lia|assumption].
Qed.
Lemma box_add : forall (w lo : list Z), length w = length lo -> map2 Z.add lo (map2 Z.sub w lo) = w.
Proof. induction w; intros [|b lo] L; cbn in L; try discriminate; cbn [map2]; [reflexivity|]. f_equal; [lia|]. apply IHw. lia. Qed.
Lemma shift_move : forall w lo lo' : list Z, length w = length lo -> length lo = length lo' ->
  map2 Z.add (map2 Z.sub w lo) (map2 Z.sub lo lo') = map2 Z.sub w lo' /\
  map2 Z.sub (map2 Z.sub w lo') (map2 Z.sub lo lo') = map2 Z.sub w lo.
Proof.
  induction w; intros [|b lo] [|c lo'] L L'; cbn in L, L'; try discriminate; cbn [map2]; [auto|].
  destruct (IHw lo lo' ltac:(lia) ltac:(lia)) as [E1 E2]. split; f_equal; auto; lia.
Qed.

Lemma sub_in_box : forall cb cb' w, sub_cells cb cb' -> in_box cb w -> in_box cb' w.
Proof.
  intros cb cb' w [H1 H2] [G1 G2]. split; [eapply Zle_trans2; eassumption|].
  clear H1 G1. revert w G2. induction H2; intros w G2; inversion G2; subst; constructor; auto. lia.
Qed.

Lemma pcc_mono : forall r a b, res_ok r -> Z.abs a <= 2 ^ 20 -> Z.abs b <= 2 ^ 20 -> a <= b ->
  fle (point_coord_from_cell_coord F32A a f0 r) (point_coord_from_cell_coord F32A b f0 r).
Proof.
  intros r a b HR Ha Hb H.
  destruct (pcc0 a r HR ltac:(lia)) as [Fa _]. destruct (pcc0 b r HR ltac:(lia)) as [Fb _].
  apply fleb_iff. split; [now apply is_finite_not_nan|]. split; [now apply is_finite_not_nan|].
  destruct (Rle_lt_dec (ext (point_coord_from_cell_coord F32A a f0 r)) (ext (point_coord_from_cell_coord F32A b f0 r))) as [L|L]; [assumption|].
  exfalso. assert (Q : fle (point_coord_from_cell_coord F32A b f0 r) (point_coord_from_cell_coord F32A a f0 r)).
  { apply fleb_iff. split; [now apply is_finite_not_nan|]. split; [now apply is_finite_not_nan|]. lra. }
  apply (wc_mono r _ _ HR) in Q. rewrite !wc_pcc in Q by assumption. assert (a = b) by lia. subst. lra.
Qed.
Lemma map_pcc_mono : forall r a b, res_ok r -> Forall (fun x => Z.abs x <= 2 ^ 20) a -> Forall (fun x => Z.abs x <= 2 ^ 20) b ->
  Forall2 Z.le a b -> Forall2 fle (map (fun k => point_coord_from_cell_coord F32A k f0 r) a) (map (fun k => point_coord_from_cell_coord F32A k f0 r) b).
Proof.
  intros r a b HR Ha Hb H. revert Ha Hb. induction H; intros Ha Hb; cbn [map]; constructor; inversion Ha; inversion Hb; subst; auto.
  now apply pcc_mono.
Qed.
Lemma sub_cells_box : forall d r cb cb', res_ok r -> cb_ordered d cb -> cb_ordered d cb' -> cb_near KB cb -> cb_near KB cb' ->
  sub_cells cb cb' -> sub_box (bounds_from_cell_bounds cb r) (bounds_from_cell_bounds cb' r).
Proof.
  intros d r cb cb' HR O O' N N' [S1 S2].
  destruct (near_weaken _ (2 ^ 20) _ N ltac:(unfold KB; lia)) as [N1 N2].
  destruct (near_weaken _ (2 ^ 20) _ N' ltac:(unfold KB; lia)) as [N1' N2'].
  rewrite !(bfc_map d) by assumption. split; cbn [bmin bmax]; now apply map_pcc_mono.
Qed.

Lemma joined_union : forall d cb rq, cells_union d cb rq (joined d cb rq).
Proof.
  intros d cb rq. unfold cells_union, joined. destruct (cb_eqb cb (cb_empty d)) eqn:E; split; intro H; try reflexivity.
  - apply cb_eqb_true in E. contradiction.
  - apply cb_eqb_true in H. congruence.
Qed.

(** One expansion. *)
Lemma expand_step : forall d r t g cb b v, map_range d r t -> wf d r t g cb -> request_ok d r b ->
  exists db g' cb' u, bounds_discretized b r true = Ret db /\
  gm_expand_bounds g b v = Ret g' /\ wf d r t g' cb' /\
  cells_union d cb (cb_from_bounds db r) u /\
  Forall2 (tile_below t) (cmin u) (cmin cb') /\ Forall2 (tile_above t) (cmax u) (cmax cb') /\
  sub_cells (cb_from_bounds db r) cb' /\
  (cb = cb_empty d \/ sub_cells cb cb') /\
  (is_zero_box (gm_bounds g) \/ sub_box (gm_bounds g) (gm_bounds g')) /\
  gm_track_changes g' = gm_track_changes g /\ gm_changed_cells g' = gm_changed_cells g /\
  (forall w, in_box cb w -> in_box cb' w /\ exists x,
     gm_get g (map2 Z.sub w (cmin cb)) = Ret x /\ gm_get g' (map2 Z.sub w (cmin cb')) = Ret x) /\
  (forall w, ~ in_box cb w -> in_box cb' w -> gm_get g' (map2 Z.sub w (cmin cb')) = Ret v) /\
  (cb' = cb -> g' = g).
Proof.
  intros d r t g cb b v M W RQ. destruct (expand_spec d r t g cb b v M W RQ) as (db & cb' & g' & Edb & T1 & T2 & E & Same & W' & K1 & K2 & Keep & New).
  destruct (bounds_discretized_spec d b r true (proj1 (proj1 (proj2 M))) (res_ok_pos r (proj1 (proj2 M))) (proj1 RQ)) as (db0 & Edb0 & _).
  destruct (disc_near d r b db (proj1 (proj2 M)) RQ Edb) as (Od & Sb & Nr & Or). clear db0 Edb0.
  assert (J : cb_from_bounds db r = mkCB (map (wc r) (bmin db)) (map (wc r) (bmax db))).
  { destruct Od as (D1 & D2 & _). apply (from_bounds_map d); [apply M|assumption|assumption]. }
  cbv zeta in T1, T2. rewrite <- J in T1, T2, Nr.
  assert (Orq : cb_ordered d (cb_from_bounds db r)).
  { rewrite J. destruct Od as (D1 & D2 & _). repeat split; cbn [cmin cmax]; rewrite ?map_length; assumption. }
  pose proof (near_weaken _ KB _ Nr ltac:(unfold KB; lia)) as Nrq. destruct M as (Hd & HR & Ht).
  pose proof W as [Wr Wt Wo Wa Wn Wb Ws Wst]. pose proof W' as [Wr' Wt' Wo' Wa' Wn' Wb' Ws' Wst'].
  destruct (joined_facts d cb _ Wo Orq Wn Nrq) as (Oj & Nj & Sj & Ej).
  destruct (below_le _ _ _ T1) as [B1 _]. destruct (above_le _ _ _ T2) as [B2 _].
  assert (SUB : forall a, sub_cells a (joined d cb (cb_from_bounds db r)) -> sub_cells a cb').
  { intros a [S1 S2]. split; eapply Zle_trans2; eassumption. }
  assert (EE : cb = cb_empty d \/ sub_cells cb cb') by (destruct Ej; [now left|right; now apply SUB]).
  pose proof Wo as (L1 & L2 & _). pose proof Wo' as (L1' & L2' & _).
  exists db, g', cb', (joined d cb (cb_from_bounds db r)).
  split; [assumption|]. split; [assumption|]. split; [assumption|]. split; [apply joined_union|].
  split; [assumption|]. split; [assumption|]. split; [now apply SUB|]. split; [assumption|].
  split; [|split; [assumption|split; [assumption|split; [|split; [|assumption]]]]].
  - destruct EE as [Z0|S]; [left|right].
    + rewrite Wb. now apply (wf_zero d r cb HR Wo Wn).
    + rewrite Wb, Wb'. now apply (sub_cells_box d).
  - intros w Hw. destruct EE as [Z0|S].
    { exfalso. apply (box_range cb w) in Hw; [|congruence]. destruct Hw as [_ Hw]. rewrite Z0 in Hw. revert Hw. now apply empty_no_cells. }
    split; [now apply (sub_in_box cb)|]. pose proof Hw as Hw1. apply (box_range cb w) in Hw1; [|congruence]. destruct Hw1 as [LW Hw1].
    rewrite <- Ws in Hw1. specialize (Keep _ Hw1). destruct (shift_move w (cmin cb) (cmin cb') LW ltac:(congruence)) as [Q1 _]. rewrite Q1 in Keep.
    pose proof (sub_in_box cb cb' w S Hw) as Hw2. apply (box_range cb' w) in Hw2; [|congruence]. destruct Hw2 as [_ Hw2]. rewrite <- Ws' in Hw2.
    rewrite (gm_get_in g _ Wst Hw1), (gm_get_in g' _ Wst' Hw2), Keep.
    destruct (proj2 (get_iff (gm_data g) _ Wst) Hw1) as [x Ex]. exists x. auto.
  - intros w Nw Hw. apply (box_range cb' w) in Hw; [|congruence]. destruct Hw as [LW Hw]. rewrite <- Ws' in Hw.
    rewrite (gm_get_in g' _ Wst' Hw). apply New; [assumption|].
    destruct (shift_move w (cmin cb) (cmin cb') ltac:(congruence) ltac:(congruence)) as [_ Q2]. rewrite Q2, Ws. intro I. apply Nw. apply box_range; [congruence|].
    split; [congruence|assumption].
Qed.

Lemma aligned_fix : forall t l l', 0 < t -> Forall (Z.divide t) l -> (Forall2 (tile_below t) l l' \/ Forall2 (tile_above t) l l') -> l' = l.
Proof.
  intros t l l' Ht D [H|H]; induction H as [|x y l l' Hx H IH]; try reflexivity; inversion D; subst; f_equal; auto;
  destruct Hx as [Dy B]; destruct (tile_near_unique t x y Ht); auto; lia.
Qed.
Lemma min_id : forall a b : list Z, Forall2 Z.le a b -> map2 Z.min a b = a.
Proof. induction 1; cbn [map2]; [reflexivity|]. f_equal; [lia|assumption]. Qed.
Lemma max_id : forall a b : list Z, Forall2 Z.le b a -> map2 Z.max a b = a.
Proof. induction 1; cbn [map2]; [reflexivity|]. f_equal; [lia|assumption]. Qed.

(** A covered request changes nothing. *)
Lemma expand_covered : forall d r t g cb b v db, map_range d r t -> wf d r t g cb -> request_ok d r b ->
  bounds_discretized b r true = Ret db -> sub_cells (cb_from_bounds db r) cb -> gm_expand_bounds g b v = Ret g.
Proof.
  intros d r t g cb b v db M W RQ Edb S.
  destruct (expand_step d r t g cb b v M W RQ) as (db' & g' & cb' & u & Edb' & E & W' & [U1 U2] & T1 & T2 & _ & _ & _ & _ & _ & _ & _ & Same).
  assert (db' = db) by congruence. subst db'. rewrite E. f_equal. apply Same.
  assert (UE : u = cb).
  { destruct S as [S1 S2]. destruct (cb_eqb cb (cb_empty d)) eqn:Q.
    - apply cb_eqb_true in Q. rewrite (U1 Q).
      destruct (disc_near d r b db (proj1 (proj2 M)) RQ Edb) as (Od & Sb & Nr & Or).
      assert (J : cb_from_bounds db r = mkCB (map (wc r) (bmin db)) (map (wc r) (bmax db))).
      { destruct Od as (D1 & D2 & _). apply (from_bounds_map d); [apply M|assumption|assumption]. }
      rewrite J in *. cbn [cmin cmax] in S1, S2. rewrite Q in *. unfold cb_empty in *. cbn [cmin cmax] in S1, S2.
      clear - S1 S2 Or. revert S1 S2 Or. unfold cell_origin, cell in *. generalize (map (wc r) (bmin db)) (map (wc r) (bmax db)). intros a b0 H1 H2 H3.
      assert (a = repeat 0 d /\ b0 = repeat 0 d) as [-> ->]; [|reflexivity].
      revert a b0 H1 H2 H3. induction d; intros a b0 H1 H2 H3; cbn [repeat] in *; inversion H1 as [|? x ? a' X1 X2]; inversion H2 as [|y ? b' ? Y1 Y2]; subst; [auto|].
      inversion H3 as [|? ? ? ? Z1 Z2]; subst. destruct (IHd _ _ X2 Y2 Z2) as [-> ->]. split; f_equal; lia.
    - rewrite U2 by (intro Q'; apply cb_eqb_true in Q'; congruence). rewrite min_id, max_id by assumption. now destruct cb. }
  subst u. destruct M as (_ & _ & Ht). destruct W as [_ _ _ [Wa1 Wa2] _ _ _ _].
  destruct cb as [a b0], cb' as [a' b']. cbn [cmin cmax] in *. f_equal.
  - apply (aligned_fix t); auto; lia.
  - apply (aligned_fix t); auto; lia.
Qed.

Lemma expand_inside : forall d r t g b v db, map_range d r t -> reachable d r t g -> request_ok d r b ->
  bounds_discretized b r true = Ret db -> sub_box db (gm_bounds g) -> gm_expand_bounds g b v = Ret g.
Proof.
  intros d r t g b v db M H RQ Edb [S1 S2]. destruct (wf_of_reachable d r t g M H) as [cb W].
  apply (expand_covered d r t g cb b v db M W RQ Edb).
  destruct (disc_near d r b db (proj1 (proj2 M)) RQ Edb) as ((D1 & D2 & _) & _ & _ & _).
  rewrite (from_bounds_map d) by (try assumption; apply M).
  destruct M as (Hd & HR & Ht). destruct W as [_ _ Wo _ Wn Wb _ _]. destruct (wf_cells d r cb HR Wo Wn) as [C1 C2].
  rewrite Wb in S1, S2. split; cbn [cmin cmax]; [rewrite <- C1|rewrite <- C2].
  - clear - S1 HR. induction S1; cbn [map]; constructor; auto. now apply wc_mono.
  - clear - S2 HR. induction S2; cbn [map]; constructor; auto. now apply wc_mono.
Qed.

Lemma expand_twice : forall d r t g b v v' g', map_range d r t -> reachable d r t g -> request_ok d r b ->
  gm_expand_bounds g b v = Ret g' -> gm_expand_bounds g' b v' = Ret g'.
Proof.
  intros d r t g b v v' g' M H RQ E. destruct (wf_of_reachable d r t g M H) as [cb W].
  destruct (expand_step d r t g cb b v M W RQ) as (db & g'' & cb' & u & Edb & E' & W' & _ & _ & _ & S & _).
  assert (g'' = g') by congruence. subst g''. exact (expand_covered d r t g' cb' b v' db M W' RQ Edb S).
Qed.

(** ** Histories *)
Lemma history_reachable : forall d r t g W, history d r t g W -> reachable d r t g.
Proof.
  intros d r t g W H. induction H as [v g W H|g W b v g' cb' W' _ IH RQ E|g W c x g' cb W' _ IH _ _ E| | |].
  - now apply (reach_new _ _ _ v).
  - now apply (reach_expand _ _ _ g b v).
  - now apply (reach_set _ _ _ g c x).
  - now apply reach_track.
  - now apply reach_clear.
  - now apply reach_add.
Qed.

Lemma in_box_dec : forall cb w, in_box cb w \/ ~ in_box cb w.
Proof. intros. apply Classical_Prop.classic. Qed.

Lemma history_get : forall d r t g W cb, map_range d r t -> history d r t g W -> covers_cells d r t g cb ->
  (forall w, in_box cb w -> exists x, W w = Some x /\ gm_get g (map2 Z.sub w (cmin cb)) = Ret x) /\
  (forall w, ~ in_box cb w -> W w = None).
Proof.
  intros d r t g W cb M H. revert cb. pose proof (proj1 (proj2 M)) as HR.
  induction H as [v g W H N|g W b v g' cb' W' H IH RQ E C' K1 K2 K3|g W c x g' cb' W' H IH C' CI E K1 K2|g W x H IH|g W H IH|g W l H IH]; intros cb C.
  - pose proof (covers_wf d r t g cb M (reach_new _ _ _ v _ H) C) as WF. rewrite (empty_bounds d r HR) in H.
    destruct (zero_ordered d t) as (O & T & N0). destruct (wf_new _ _ _ _ v _ M O T N0 H) as [W0 _].
    rewrite (covers_unique d r t g cb _ HR C (wf_covers _ _ _ _ _ M W0)). split; [|auto].
    intros w Hw. exfalso. apply (box_range _ w) in Hw; [|reflexivity]. destruct Hw as [_ Hw]. revert Hw. apply empty_no_cells, M.
  - assert (cb' = cb) by exact (covers_unique d r t g' cb' cb HR C' C). subst cb'. clear C'.
    pose proof (history_reachable _ _ _ _ _ H) as Hr. destruct (wf_of_reachable d r t g M Hr) as [c0 W0].
    destruct (IH c0 (wf_covers _ _ _ _ _ M W0)) as [I1 I2].
    destruct (expand_step d r t g c0 b v M W0 RQ) as (db & g'' & cb' & u & _ & E' & W1 & _ & _ & _ & _ & _ & _ & _ & _ & Old & New & _).
    assert (g'' = g') by congruence. subst g''. assert (cb' = cb) by exact (covers_unique d r t g' cb' cb HR (wf_covers _ _ _ _ _ M W1) C). subst cb'.
    split.
    + intros w Hw. destruct (in_box_dec c0 w) as [B|B].
      * destruct (I1 w B) as (x & Ex & G). destruct (Old w B) as (_ & y & Gy & Gy'). exists x. split; [now apply K1|]. congruence.
      * exists v. split; [apply K2; auto|]. now apply New.
    + intros w Hw. destruct (in_box_dec c0 w) as [B|B]; [destruct (Old w B) as [B' _]; contradiction|]. apply K3; auto.
  - pose proof (history_reachable _ _ _ _ _ H) as Hr. pose proof (covers_wf d r t g cb' M Hr C') as W0.
    destruct (set_storage g c x g' (wf_storage _ _ _ _ _ W0) E) as (S & E1 & E2 & E3 & E4).
    pose proof (wf_same d r t g g' cb' W0 S E1 E2 E3 E4) as W1.
    assert (cb' = cb) by exact (covers_unique d r t g' cb' cb HR (wf_covers _ _ _ _ _ M W1) C). subst cb'.
    destruct (IH cb C') as [I1 I2]. pose proof W0 as [_ _ (L1 & L2 & _) _ _ _ Ws Wst].
    destruct (gm_set_spec g c x g' Wst CI E) as (_ & _ & G1 & G2 & _).
    assert (RC : in_range (nd_shape (gm_data g)) c).
    { destruct (Classical_Prop.classic (in_range (nd_shape (gm_data g)) c)) as [I|I]; [assumption|]. rewrite (proj2 (gm_set_iff g c x Wst CI) I) in E. discriminate. }
    pose proof RC as RC'. rewrite Ws in RC'. apply range_box in RC'; [|congruence]. destruct RC' as [BC EC].
    split.
    + intros w Hw. destruct (list_eq_dec Z.eq_dec w (map2 Z.add (cmin cb) c)) as [Q|Q].
      * subst w. exists x. split; [assumption|]. unfold cell in *. now rewrite EC.
      * destruct (I1 w Hw) as (y & Ey & G). exists y. split; [now rewrite K2|]. rewrite G2; [assumption| |].
        -- apply (box_range cb w) in Hw; [|congruence]. destruct Hw as [_ Hw]. rewrite <- Ws in Hw. apply (range_isize _ _ (proj1 Wst) Hw).
        -- intro Q2. apply Q. apply (box_range cb w) in Hw; [|congruence]. destruct Hw as [LW _]. rewrite <- Q2. symmetry. now apply box_add.
    + intros w Hw. rewrite K2; [now apply I2|]. intros ->. contradiction.
  - apply (IH cb). destruct C; now constructor.
  - apply (IH cb). destruct C; now constructor.
  - apply (IH cb). destruct C; now constructor.
Qed.
End Reach.

(** ** Room for the requested box *)
Lemma fle_real : forall x y : f32, finite x -> finite y -> fle x y -> (B2R x <= B2R y)%R.
Proof. intros x y Fx Fy H. apply fleb_iff in H. destruct H as (_ & _ & H). now rewrite !ext_finite in H. Qed.

Lemma between_finite : forall lo p hi : f32, finite lo -> finite hi -> fle lo p -> fle p hi -> finite p.
Proof.
  intros lo p hi Fl Fh H1 H2. apply fleb_iff in H1, H2. destruct H1 as (_ & _ & H1), H2 as (N & _ & H2).
  rewrite (ext_finite _ Fl) in H1. rewrite (ext_finite _ Fh) in H2.
  pose proof (abs_B2R_lt_emax 24 128 lo) as A. pose proof (abs_B2R_lt_emax 24 128 hi) as B.
  apply Rabs_def2 in A, B. unfold finite. destruct p as [s|s| |s m e b0]; try reflexivity; try discriminate.
  destruct s; unfold ext in H1, H2; exfalso; lra.
Qed.

Section Room.
Local Open Scope R_scope.
Context (r : f32) (HR : res_ok r).

Lemma room_axis : forall (lo hi p o : f32) k k', within_cells (2 ^ 18) r lo -> within_cells (2 ^ 18) r hi -> fle lo p -> fle p hi ->
  (k <= wc r (fdisc_min1 r lo))%Z -> (wc r (fdisc_max1 r true hi) <= k')%Z -> (Z.abs k <= KB)%Z -> at_cell r k o ->
  (0 <= cell_coord_from_point_coord F32A p o r <= k' - k)%Z /\
  (axis_safe r p hi -> (cell_coord_from_point_coord F32A p o r < k' - k)%Z).
Proof.
  intros lo hi p o k k' Wl Wh H1 H2 Hk Hk' Bk At. pose proof (res_ok_pos r HR) as P.
  pose proof (between_finite lo p hi (proj1 Wl) (proj1 Wh) H1 H2) as Fp.
  apply fle_real in H1; [|apply Wl|assumption]. apply fle_real in H2; [|assumption|apply Wh].
  destruct (disc_min_cell r HR lo Wl) as [Fm Dm]. destruct (disc_max_cell r HR hi Wh) as (FM & DM & KM).
  assert (Mle : B2R (fdisc_min1 r lo) <= B2R lo).
  { apply fle_real; [assumption|apply Wl|]. apply (fdisc_min1_spec r lo); [apply HR|assumption|]. apply is_finite_not_nan, Wl. }
  assert (MLe : B2R hi <= B2R (fdisc_max1 r true hi)).
  { apply fle_real; [apply Wh|assumption|]. apply (fdisc_max1_spec r hi true); [apply HR|assumption|]. apply is_finite_not_nan, Wh. }
  destruct Wl as [_ Wl], Wh as [_ Wh]. unfold real in Wl, Wh. change (IZR (2 ^ 18)) with 262144 in Wl, Wh.
  apply Rabs_le_inv in Wl, Wh.
  assert (Bp : Rabs (B2R p) <= 262146 * B2R r) by (apply Rabs_le; lra).
  pose proof (index_near r HR p o k Fp Bp Bk At) as I.
  set (i := cell_coord_from_point_coord F32A p o r) in *.
  set (x := B2R p / B2R r) in *. assert (Ex : B2R p = x * B2R r) by (unfold x; field; lra).
  apply Rabs_le_inv in I, Dm, DM.
  set (m := wc r (fdisc_min1 r lo)) in *. set (mm := wc r (fdisc_max1 r true hi)) in *.
  apply IZR_le in Hk. assert (Hk2 := Hk'). apply IZR_le in Hk2.
  assert (X1 : IZR k - / 8 <= x) by (apply Rmult_le_reg_r with (B2R r); [assumption|]; nra).
  assert (X2 : x <= IZR k' + / 8) by (apply Rmult_le_reg_r with (B2R r); [assumption|]; nra).
  assert (L : forall a b, IZR a < IZR b + 1 -> (a <= b)%Z).
  { intros a b H. change 1 with (IZR 1) in H. rewrite <- plus_IZR in H. apply lt_IZR in H. lia. }
  split.
  - split; apply L; rewrite ?minus_IZR; lra.
  - intros S. apply lt_IZR. rewrite minus_IZR. destruct S as [S|(j & J1 & J2)]; unfold real in *.
    + assert (x <= IZR k' - 7 / 8) by (apply Rmult_le_reg_r with (B2R r); [assumption|]; nra). lra.
    + assert (J3 : IZR j <= x) by (apply Rmult_le_reg_r with (B2R r); [assumption|]; lra).
      assert (J4 : x <= IZR j + / 4) by (apply Rmult_le_reg_r with (B2R r); [assumption|]; lra).
      assert (J5 : -262144 <= x <= 262144) by (split; apply Rmult_le_reg_r with (B2R r); try assumption; lra).
      assert (Q : (j + 1 <= mm)%Z).
      { apply KM; [|lra]. assert (-262145 <= j <= 262144)%Z by (split; apply L; lra). lia. }
      assert (Q2 : IZR j + 1 <= IZR k') by (rewrite <- plus_IZR; apply IZR_le; lia). lra.
Qed.
End Room.

Section Room2.
Context {A : Type}.
Implicit Types g : grid_map A.
Lemma expand_room : forall d r t g b v g' p, map_range d r t -> reachable d r t g -> request_ok d r b ->
  gm_expand_bounds g b v = Ret g' -> inside b p ->
  Forall2 (fun n i => 0 <= i <= n) (nd_shape (gm_data g')) (gm_cell_from_point g' p) /\
  (Forall2 (axis_safe r) p (bmax b) -> exists x, gm_get g' (gm_cell_from_point g' p) = Ret x).
Proof.
  intros d r t g b v g' p M H RQ E [I1 I2]. destruct (wf_of_reachable d r t g M H) as [cb W].
  destruct (expand_step d r t g cb b v M W RQ) as (db & g'' & cb' & u & Edb & E' & W' & _ & _ & _ & [S1 S2] & _).
  assert (g'' = g') by congruence. subst g''. clear E'. pose proof (proj1 (proj2 M)) as HR.
  destruct (disc_near d r b db HR RQ Edb) as ((D1 & D2 & _) & _ & _ & _).
  rewrite (from_bounds_map d) in S1, S2 by assumption. cbn [cmin cmax] in S1, S2.
  pose proof (wf_covers _ _ _ _ _ M W') as C. destruct C as [_ _ _ _ _ C1 _ _ _].
  destruct W' as [Wr _ (L1 & L2 & O) _ [N1 N2] _ Ws Wst]. destruct RQ as ((R1 & R2 & _) & Q1 & Q2).
  unfold bounds_discretized, bounds_new in Edb.
  assert (DB : bmin db = map (fdisc_min1 r) (bmin b) /\ bmax db = map (fdisc_max1 r true) (bmax b)).
  { revert Edb. unfold oassert. destruct (forallb _ _); cbn [obind]; [|discriminate]. intros [= <-]. auto. }
  destruct DB as [DB1 DB2]. rewrite DB1, map_map in S1. rewrite DB2, map_map in S2. clear DB1 DB2 Edb D1 D2.
  unfold gm_cell_from_point at 1. rewrite Wr, Ws.
  assert (K : Forall2 (fun n i => 0 <= i <= n) (map2 Z.sub (cmax cb') (cmin cb')) (cell_from_point F32A p (bmin (gm_bounds g')) r) /\
    (Forall2 (axis_safe r) p (bmax b) -> in_range (map2 Z.sub (cmax cb') (cmin cb')) (cell_from_point F32A p (bmin (gm_bounds g')) r))).
  { clear - HR C1 N1 N2 Q1 Q2 I1 I2 S1 S2 L1 L2 R1 R2. unfold cell_from_point, in_range.
    revert HR C1 N1 N2 Q1 Q2 I1 I2 S1 S2 L1 L2 R1 R2. unfold cell, point in *.
    generalize (cmin cb') (cmax cb') (bmin (gm_bounds g')) (bmin b) (bmax b). intros lo hi o mn mx HR. revert lo hi o mn mx p.
    induction d as [|d IH]; intros lo hi o mn mx p C1 N1 N2 Q1 Q2 I1 I2 S1 S2 L1 L2 R1 R2.
    - destruct lo, hi; try discriminate. inversion C1; subst. destruct mn, mx; try discriminate. inversion I1; subst. cbn. split; constructor.
    - destruct lo as [|k lo], hi as [|k' hi], mn as [|a mn], mx as [|z mx]; try discriminate.
      inversion C1 as [|? o1 ? o' Ho C1']; subst. inversion I1 as [|? p1 ? p' Hp1 I1']; subst. inversion I2 as [|? ? ? ? Hp2 I2']; subst.
      inversion N1 as [|? ? Nk N1']; inversion N2; inversion Q1 as [|? ? Qa Q1']; inversion Q2 as [|? ? Qz Q2']; subst.
      cbn [map] in S1, S2. inversion S1 as [|? ? ? ? Sa S1']; inversion S2 as [|? ? ? ? Sz S2']; subst.
      destruct (room_axis r HR a z p1 o1 k k' Qa Qz Hp1 Hp2 Sa Sz Nk Ho) as [G1 G2].
      cbn in L1, L2, R1, R2. injection L1 as L1. injection L2 as L2. injection R1 as R1. injection R2 as R2.
      edestruct (IH lo hi o' mn mx p') as [G3 G4]; try eassumption.
      cbn [map2]. split; [constructor; assumption|]. intros S. inversion S; subst. constructor; [|now apply G4].
      split; [apply G1|]. now apply G2. }
  destruct K as [K1 K2]. split; [exact K1|]. intros S. specialize (K2 S).
  rewrite <- Ws in K2. unfold gm_cell_from_point. rewrite Wr. rewrite (gm_get_in g' _ Wst K2).
  exact (proj2 (get_iff (gm_data g') _ Wst) K2).
Qed.
End Room2.

(** ** Statements of the properties *)
Section Statements.
Context {A : Type}.
Implicit Types g : grid_map A.

Lemma get_negative : forall g c v, storage_ok (gm_data g) -> cells_in_isize c -> Exists (fun x => x < 0) c ->
  gm_get g c = Panic /\ gm_set g c v = Panic.
Proof.
  intros g c v S I N. assert (H : ~ in_range (nd_shape (gm_data g)) c).
  { intro H. clear -N H. unfold in_range in H. induction H; inversion N; subst; auto; lia. }
  split; [now apply gm_get_iff|now apply gm_set_iff].
Qed.

Lemma set_many : forall (ws : list (cell * A)) g g', storage_ok (gm_data g) -> Forall (fun w => cells_in_isize (fst w)) ws ->
  ofold (fun m w => gm_set m (fst w) (snd w)) g ws = Ret g' ->
  storage_ok (gm_data g') /\ nd_shape (gm_data g') = nd_shape (gm_data g) /\
  (forall c, cells_in_isize c -> ~ In c (map fst ws) -> gm_get g' c = gm_get g c) /\
  (forall ws1 w ws2, ws = ws1 ++ w :: ws2 -> ~ In (fst w) (map fst ws2) -> gm_get g' (fst w) = Ret (snd w)).
Proof.
  induction ws as [|[c v] ws IH]; intros g g' S F H.
  - cbn in H. injection H as <-. repeat split; auto; try apply S. intros [|? ?] w ws2 E; discriminate.
  - cbn [ofold] in H. destruct (gm_set g (fst (c, v)) (snd (c, v))) as [g1| |] eqn:E; try discriminate. cbn [obind] in H.
    inversion F as [|? ? Fc F']; subst. cbn [fst snd] in *.
    destruct (gm_set_spec g c v g1 S Fc E) as (S1 & E1 & G1 & G2 & _).
    destruct (IH g1 g' S1 F' H) as (S' & E' & K1 & K2). split; [assumption|]. split; [congruence|]. split.
    + intros c' I' N. cbn [map fst In] in N. rewrite K1 by (auto; tauto). apply G2; [assumption|]. intros ->. tauto.
    + intros ws1 w ws2 Q N. destruct ws1 as [|w1 ws1]; cbn [app] in Q.
      * injection Q as <- <-. cbn [fst snd] in *. rewrite K1 by assumption. assumption.
      * injection Q as <- Q. now apply (K2 ws1 w ws2).
Qed.

(** A map made from an array. *)
Lemma row_major_offset : forall shape c a, length c = length shape ->
  fold_left (fun a p => a * fst p + snd p) (combine shape c) a = a * zprod shape + offset_of shape c.
Proof.
  induction shape as [|n shape IH]; intros [|x c] a L; try discriminate L; [unfold zprod; cbn; lia|].
  cbn [combine fold_left fst snd offset_of]. rewrite IH by (cbn [length] in L; lia). change (zprod (n :: shape)) with (n * zprod shape). ring.
Qed.
Lemma from_array : forall (a : ndarray A) r b t, storage_ok a ->
  let g := gm_from_ndarray a r b t in
  storage_ok (gm_data g) /\ nd_shape (gm_data g) = nd_shape a /\ gm_bounds g = b /\ gm_resolution g = r /\ gm_tile_size g = t /\
  gm_track_changes g = false /\ gm_changed_cells g = [] /\
  (forall c, in_range (nd_shape a) c -> exists v, gm_get g c = Ret v /\
     nth_error (nd_data a) (Z.to_nat (fold_left (fun k p => k * fst p + snd p) (combine (nd_shape a) c) 0)) = Some v).
Proof.
  intros a r b t S g. split; [exact S|]. do 6 (split; [reflexivity|]). intros c I.
  pose proof (gm_get_in g c S I) as E. destruct (proj2 (get_iff a c S) I) as [v V]. exists v. split; [rewrite E; exact V|].
  rewrite row_major_offset by (symmetry; eapply Forall2_length; exact I). cbn [Z.mul Z.add].
  unfold nd_get in V. destruct (in_shape _ _); [|discriminate V]. destruct (nth_error _ _) as [x|]; [now injection V as ->|discriminate V].
Qed.

Lemma default_new : forall d (v : A), (d = 2 \/ d = 3)%nat ->
  gm_default d = gm_new (f32_lit 1 10) (bounds_empty d) 100 v /\
  exists g, gm_default (A := A) d = Ret g /\ nd_shape (gm_data g) = repeat 0 d /\ (forall c, cells_in_isize c -> gm_get g c = Panic).
Proof.
  intros d v Hd.
  assert (E : cell_from_point F32A (bmax (bounds_empty d)) (bmin (bounds_empty d)) DEFAULT_RESOLUTION = repeat 0 d).
  { destruct Hd as [-> | ->]; vm_compute; reflexivity. }
  assert (EQ : gm_default d = gm_new DEFAULT_RESOLUTION (bounds_empty d) DEFAULT_TILE_SIZE v).
  { unfold gm_default, gm_new, ndarray_with_bounds. rewrite E. destruct Hd as [-> | ->]; reflexivity. }
  split; [assumption|].
  assert (EX : exists g, gm_default (A := A) d = Ret g /\ nd_shape (gm_data g) = repeat 0 d).
  { destruct Hd as [-> | ->]; eexists; split; reflexivity. }
  destruct EX as (g & G & S). exists g. split; [assumption|]. split; [assumption|]. intros c I.
  rewrite EQ in G. apply gm_new_storage in G. destruct G as (St & _). apply gm_get_iff; [assumption|assumption|]. rewrite S.
  intro H. destruct Hd as [-> | ->]; inversion H; subst; lia.
Qed.

Lemma expand_keeps : forall d r t g b v, map_range d r t -> reachable d r t g -> request_ok d r b ->
  exists g' cb cb', gm_expand_bounds g b v = Ret g' /\ covers_cells d r t g cb /\ covers_cells d r t g' cb' /\
  forall c, in_range (nd_shape (gm_data g)) c ->
    let w := map2 Z.add (cmin cb) c in
    let c' := map2 Z.sub w (cmin cb') in
    in_range (nd_shape (gm_data g')) c' /\
    (exists x, gm_get g c = Ret x /\ gm_get g' c' = Ret x) /\
    near_cell r w (gm_point_from_cell g c) /\ near_cell r w (gm_point_from_cell g' c').
Proof.
  intros d r t g b v M H RQ. destruct (wf_of_reachable d r t g M H) as [cb W].
  destruct (expand_step d r t g cb b v M W RQ) as (db & g' & cb' & u & _ & E & W' & _ & _ & _ & _ & _ & _ & _ & _ & Old & _ & _).
  exists g', cb, cb'. split; [assumption|]. split; [now apply wf_covers|]. split; [now apply wf_covers|].
  intros c I. cbv zeta. pose proof W as [_ _ (L1 & L2 & _) _ _ _ Ws _]. pose proof W' as [_ _ (L1' & L2' & _) _ _ _ Ws' _].
  pose proof I as I0. rewrite Ws in I0. apply range_box in I0; [|congruence]. destruct I0 as [B EC].
  destruct (Old _ B) as (B' & x & G1 & G2). unfold cell in *. rewrite EC in G1.
  pose proof B' as I'. apply (box_range cb') in I'; [|unfold cell in *; congruence]. destruct I' as [LW I']. rewrite <- Ws' in I'.
  split; [assumption|]. split; [now exists x|]. split.
  - now apply (cells_near d r t g cb).
  - pose proof (cells_near d r t g' cb' _ M W' I') as N. unfold cell in *. now rewrite box_add in N.
Qed.

Lemma expand_wellformed : forall d r t g b v, map_range d r t -> reachable d r t g -> request_ok d r b ->
  exists g' db cb cb' u, gm_expand_bounds g b v = Ret g' /\
  covers_cells d r t g cb /\ covers_cells d r t g' cb' /\
  bounds_discretized b r true = Ret db /\ cells_union d cb (cb_from_bounds db r) u /\
  Forall2 (tile_below t) (cmin u) (cmin cb') /\ Forall2 (tile_above t) (cmax u) (cmax cb') /\
  (is_zero_box (gm_bounds g) \/ sub_box (gm_bounds g) (gm_bounds g')) /\
  (forall w, in_box cb' w -> ~ in_box cb w -> gm_get g' (map2 Z.sub w (cmin cb')) = Ret v) /\
  gm_track_changes g' = gm_track_changes g /\ gm_changed_cells g' = gm_changed_cells g.
Proof.
  intros d r t g b v M H RQ. destruct (wf_of_reachable d r t g M H) as [cb W].
  destruct (expand_step d r t g cb b v M W RQ) as (db & g' & cb' & u & Edb & E & W' & U & T1 & T2 & _ & _ & S & K1 & K2 & _ & New & _).
  exists g', db, cb, cb', u. split; [assumption|]. split; [now apply wf_covers|]. split; [now apply wf_covers|].
  repeat (split; [assumption|]). split; [|auto]. intros w Hw Nw. now apply New.
Qed.

Lemma history_contents : forall d r t g W, map_range d r t -> history d r t g W ->
  exists cb, covers_cells d r t g cb /\
  (forall w, in_box cb w -> exists x, W w = Some x /\ gm_get g (map2 Z.sub w (cmin cb)) = Ret x) /\
  (forall w, ~ in_box cb w -> W w = None).
Proof.
  intros d r t g W M H. destruct (reachable_covers d r t g M (history_reachable _ _ _ _ _ H)) as [cb C].
  exists cb. split; [assumption|]. now apply (history_get d r t).
Qed.

Lemma aligned_expandable : forall d r t cb b (v v' : A), map_range d r t -> cb_ordered d cb -> tile_aligned t cb -> cb_near (2 ^ 18) cb ->
  request_ok d r b -> exists g g', gm_new r (bounds_from_cell_bounds cb r) t v = Ret g /\ gm_expand_bounds g b v' = Ret g'.
Proof.
  intros d r t cb b v v' M O T N RQ.
  destruct (new_aligned d r t cb v) as (g & E & _); [destruct M as [[-> | ->] _]; lia|apply M|assumption|eapply near_weaken; [eassumption|lia]|].
  assert (H : reachable d r t g) by (eapply reach_aligned; eassumption).
  destruct (expand_wellformed d r t g b v' M H RQ) as (g' & _ & _ & _ & _ & E' & _). eauto.
Qed.

Lemma map_points : forall d r t g cb, map_range d r t -> reachable d r t g -> covers_cells d r t g cb ->
  forall w, in_box cb w -> near_cell r w (gm_point_from_cell g (map2 Z.sub w (cmin cb))).
Proof.
  intros d r t g cb M H C w B. pose proof (covers_wf d r t g cb M H C) as W. pose proof W as [_ _ (L1 & L2 & _) _ _ _ Ws _].
  apply (box_range cb w) in B; [|congruence]. destruct B as [LW B]. rewrite <- Ws in B.
  pose proof (cells_near d r t g cb _ M W B) as N. unfold cell in *. now rewrite box_add in N.
Qed.
End Statements.
Lemma new_storage_ok : forall A r b t (v : A) g, gm_new r b t v = Ret g -> storage_ok (gm_data g).
Proof. intros A r b t v g H. apply (gm_new_storage _ _ _ _ _ H). Qed.
Lemma covers_cells_computed : forall A d r t (g : grid_map A), map_range d r t -> reachable d r t g ->
  covers_cells d r t g (cb_from_bounds (gm_bounds g) r).
Proof.
  intros A d r t g M H. destruct (wf_of_reachable d r t g M H) as [cb W]. pose proof W as [_ _ Wo _ Wn Wb _ _].
  assert (Ecb : cb_from_bounds (gm_bounds g) r = cb).
  { rewrite Wb. apply (cell_bounds_round_trip d); try apply M; try (apply Wo);
    destruct (near_weaken _ (2 ^ 20) _ Wn ltac:(unfold KB; lia)); assumption. }
  rewrite Ecb. now apply wf_covers.
Qed.
