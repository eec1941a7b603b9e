(** C46 in terms of the points: when a cell number keeps its meaning. *)
From Coq Require Import ZArith List Bool Reals Lra Lia Permutation.
From Flocq Require Import Core BinarySingleNaN.
From Verif Require Import Base F32 FloatFacts Arith Geom NdArray GridMap RayCaster NoiseModel Spec SpecMap SpecNoise ConverterProofs GeomProofs BoundsProofs CloudProofs NdProofs GridProofs ExpandProofs UnalignedProofs MapProofs BuiltProofs NoiseProofs IndexProofs CastProofs AlignProofs ExtentProofs.
Open Scope Z_scope.

(** Each lower coordinate of the box of a cloud is zero or the coordinate of a point. *)
Lemma fold_attained : forall d i ps b, (i < d)%nat -> length (bmin b) = d -> length (bmax b) = d -> (forall p, In p ps -> length p = d) ->
  let l := nth i (bmin (fold_left bounds_add_point ps b)) f0 in l = nth i (bmin b) f0 \/ exists p, In p ps /\ l = nth i p f0.
Proof.
  intros d i. induction ps as [|p ps IH]; intros b Hi L1 L2 H; [now left|]. cbn [fold_left]. pose proof (H p (or_introl eq_refl)) as Lp.
  destruct (IH (bounds_add_point b p)) as [E|(q & Hq & E)]; [exact Hi| | | | |].
  - unfold bounds_add_point. cbn [bmin]. now apply CastProofs.map2_len.
  - unfold bounds_add_point. cbn [bmax]. now apply CastProofs.map2_len.
  - intros q Hq. apply H. now right.
  - cbv zeta. rewrite E. unfold bounds_add_point. cbn [bmin]. rewrite (nth_map2 _ p (bmin b) i f0 f0 f0) by lia.
    destruct (fltb _ _); [right; exists p; split; [now left|reflexivity]|now left].
  - cbv zeta. rewrite E. right. exists q. split; [now right|reflexivity].
Qed.
Lemma box_attained : forall d i m, matrix_ok m -> nrows m = d -> (i < d)%nat ->
  nth i (bmin (pc_bounds m)) f0 = f0 \/ exists p, In p (pc_points m) /\ nth i (bmin (pc_bounds m)) f0 = nth i p f0.
Proof.
  intros d i m MO NR Hi. unfold pc_bounds. rewrite NR. destruct (fold_attained d i (pc_points m) (bounds_empty d) Hi) as [E|E]; [..|right; exact E].
  - cbn [bounds_empty bmin]. apply repeat_length. - cbn [bounds_empty bmax]. apply repeat_length.
  - intros p Hp. rewrite <- NR. exact (mcol_point_length m p MO Hp).
  - left. etransitivity; [exact E|]. cbn [bounds_empty bmin]. unfold origin. now rewrite nth_repeat.
Qed.

(** Zero is in cell zero. *)
Lemma zero_lower : forall r, res_ok r -> wc r (fdisc_min1 r f0) = 0.
Proof.
  intros r HR. pose proof (res_ok_pos r HR) as P. destruct HR as [F _].
  destruct r as [s|s| |s n e B]; try discriminate F; [exfalso; unfold real in P; cbn [B2R] in P; lra|].
  destruct s; [exfalso; revert P; unfold real; cbn [B2R]; intro P; assert (Q : (F2R (Float radix2 (cond_Zopp true (Z.pos n)) e) < 0)%R) by (apply F2R_lt_0; reflexivity); lra|]. vm_compute. reflexivity.
Qed.

Lemma index_points : forall d r t fuel of oo m g cb o cloud g' c, map_range d r t -> reachable d r t g -> covers_cells d r t g cb ->
  is_order of -> is_order oo -> matrix_ok cloud -> nrows cloud = d -> (forall p, In p (pc_points cloud) -> Forall (within_cells (2 ^ 18) r) p) ->
  in_range (nd_shape (gm_data g)) c -> integrate_point_cloud fuel of oo m g o cloud = Ret g' ->
  let corner i := IZR (nth i (cmin cb) 0) in
  ((forall i, (i < d)%nat -> (corner i <= 0)%R /\ forall p, In p (pc_points cloud) -> ((corner i + / 5) * real r <= real (nth i p f0))%R) ->
    gm_point_from_cell g' c = gm_point_from_cell g c) /\
  (forall i p, (i < d)%nat -> In p (pc_points cloud) -> (real (nth i p f0) < (corner i - / 5) * real r)%R -> gm_point_from_cell g' c <> gm_point_from_cell g c).
Proof.
  intros d r t fuel of oo m g cb o cloud g' c M H C Hf Ho MO NR WP I E corner. pose proof M as (Hd & HR & Ht). assert (P : (0 < real r)%R) by exact (res_ok_pos r HR).
  assert (RQ : request_ok d r (pc_bounds cloud)) by (apply cloud_request; assumption).
  pose proof (covers_wf d r t g cb M H C) as W. destruct (expand_step d r t g cb (pc_bounds cloud) f0 M W RQ) as (db & _ & _ & _ & Edb & _).
  destruct (index_exactly d r t fuel of oo m g cb o cloud g' db c M H C Hf Ho RQ Edb I E) as (cb' & _ & _ & _ & _ & X).
  destruct (disc_near d r (pc_bounds cloud) db HR RQ Edb) as ((D1 & D2 & D3) & _ & _ & _). destruct (disc_finite d r (pc_bounds cloud) db HR RQ Edb) as [F3 F4].
  rewrite (cells_map r db F3 F4), <- (from_bounds_map d db r HR D1 D2), (asked_is d r _ db HR RQ Edb) in X. cbn [asked cmin] in X.
  destruct RQ as ((B1 & B2 & _) & W1 & _). destruct (cc_ordered _ _ _ _ _ C) as (L1 & _).
  set (lo := bmin (pc_bounds cloud)) in *.
  assert (N : forall i, (i < d)%nat -> let v := nth i lo f0 in nth i (map (wc r) (map (fdisc_min1 r) lo)) 0 = wc r (fdisc_min1 r v) /\ (real v / real r - 6 / 5 < IZR (wc r (fdisc_min1 r v)) <= real v / real r + / 5)%R).
  { intros i Hi v. split.
    - rewrite (nth_indep _ 0 (wc r (fdisc_min1 r f0))) by (rewrite !map_length; lia). now rewrite !map_nth.
    - apply lower_number; [exact HR|]. apply (Forall_nth (within_cells (2 ^ 18) r) lo); [exact W1|lia]. }
  assert (LE : Forall2 Z.le (cmin cb) (map (wc r) (map (fdisc_min1 r) lo)) <-> forall i, (i < d)%nat -> nth i (cmin cb) 0 <= wc r (fdisc_min1 r (nth i lo f0))).
  { rewrite (Forall2_nth_iff _ 0 0) by (rewrite !map_length; unfold cell, point in *; lia). split; intros K i Hi.
    - rewrite <- (proj1 (N i Hi)). apply K. unfold cell in *. lia.
    - unfold cell in *. rewrite (proj1 (N i ltac:(lia))). apply K. lia. }
  split.
  - intro K. apply X, LE. intros i Hi. destruct (K i Hi) as [K0 K1]. destruct (N i Hi) as [_ [N1 _]]. cbv zeta in N1.
    destruct (box_attained d i cloud MO NR Hi) as [Q|(p & Hp & Q)]; fold lo in Q; rewrite Q in *; [rewrite (zero_lower r HR); apply le_IZR; exact K0|].
    specialize (K1 p Hp). assert (V' : (corner i + / 5 <= real (nth i p f0) / real r)%R) by (apply Rmult_le_reg_r with (1 := P); unfold Rdiv; rewrite Rmult_assoc, Rinv_l by lra; lra).
    apply Z.lt_succ_r. apply lt_IZR. rewrite succ_IZR. fold (corner i). lra.
  - intros i p Hi Hp V Q. apply X in Q. rewrite LE in Q. specialize (Q i Hi). destruct (N i Hi) as [_ [_ N2]]. cbv zeta in N2.
    destruct (pc_bounds_spec cloud MO) as (_ & _ & CV & _). destruct (CV p Hp) as [CV1 _]. fold lo in CV1.
    pose proof (mcol_point_length cloud p MO Hp) as Lp. rewrite NR in Lp.
    assert (CV2 : is_nan (nth i p f0) = true \/ fle (nth i lo f0) (nth i p f0)) by (refine (proj1 (Forall2_nth_iff _ f0 f0 _ _ _) CV1 i _); unfold point in *; lia).
    assert (WI : within_cells (2 ^ 18) r (nth i p f0)) by (apply (Forall_nth (within_cells (2 ^ 18) r) p); [exact (WP p Hp)|lia]).
    assert (WL : within_cells (2 ^ 18) r (nth i lo f0)) by (apply (Forall_nth (within_cells (2 ^ 18) r) lo); [exact W1|lia]).
    assert (R1 : (real (nth i lo f0) <= real (nth i p f0))%R). { apply fle_reals; [apply WL|apply WI|]. destruct CV2 as [CV2|CV2]; [|exact CV2]. destruct WI as [WI _]. unfold finite in WI. destruct (nth i p f0); discriminate. }
    apply IZR_le in Q. fold (corner i) in Q. assert (V' : (real (nth i lo f0) / real r < corner i - / 5)%R).
    { apply Rmult_lt_reg_r with (1 := P). unfold Rdiv. rewrite Rmult_assoc, Rinv_l by lra. lra. }
    lra.
Qed.
