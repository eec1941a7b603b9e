(** Proofs about resized_ndarray. *)
From Coq Require Import ZArith List Bool Reals Lra Lia Psatz.
From Flocq Require Import Core BinarySingleNaN.
From Verif Require Import Base F32 FloatFacts RoundError Arith Geom NdArray GridMap Resize Spec SpecMap ConverterProofs GeomProofs BoundsProofs NdProofs GridProofs ExpandProofs MapProofs ApproxProofs.
Open Scope Z_scope.

(** ** Slice assignment between slices of equal size *)
Inductive cut : list Z -> list Z -> list Z -> Prop :=
| cut_nil : cut [] [] []
| cut_cons : forall n s e ns ss es, 0 <= s <= e -> e <= n -> cut ns ss es -> cut (n :: ns) (s :: ss) (e :: es).
Definition slice_of (ss es : list Z) : list (Z * Z) := map2 (fun s e => (s, e - s)) ss es.

Lemma cut_axes : forall ns ss es, cut ns ss es -> slice_axes ns ss es = Ret (slice_of ss es).
Proof.
  induction 1 as [|n s e ns ss es H1 H2 _ IH]; [reflexivity|]. cbn [slice_axes]. rewrite slice_axis_ok by assumption.
  cbn [obind]. rewrite IH. reflexivity.
Qed.

Lemma in_slice_iff : forall ns ss es idx, cut ns ss es ->
  in_slice (slice_of ss es) idx = true <-> Forall2 Z.le ss idx /\ Forall2 Z.lt idx es.
Proof.
  intros ns ss es idx C. revert idx. induction C as [|n s e ns ss es H1 H2 _ IH]; intros [|i idx]; cbn.
  - repeat split; constructor.
  - split; [discriminate|]. intros [H _]. inversion H.
  - split; [discriminate|]. intros [H _]. inversion H.
  - fold (slice_of ss es). rewrite !andb_true_iff, IH, Z.leb_le, Z.ltb_lt. split.
    + intros ((A1 & A2) & A3 & A4). split; constructor; auto; lia.
    + intros [A B]. inversion A; inversion B; subst. repeat split; auto; lia.
Qed.

Lemma source_cut : forall ms fs fe ns ss es idx, cut ms fs fe -> cut ns ss es -> map2 Z.sub fe fs = map2 Z.sub es ss ->
  Forall2 Z.le ss idx -> Forall2 Z.lt idx es -> length fs = length ss ->
  source_index (slice_of ss es) (slice_of fs fe) idx = map2 Z.add (map2 Z.sub idx ss) fs /\
  Forall2 (fun n x => 0 <= x < n) ms (map2 Z.add (map2 Z.sub idx ss) fs).
Proof.
  intros ms fs fe ns ss es idx C. revert ns ss es idx. induction C as [|m s e ms fs fe H1 H2 _ IH]; intros ns ss es idx D E A B L.
  - destruct ss; [|discriminate]. inversion A; subst. split; [reflexivity|constructor].
  - destruct D as [|n s' e' ns ss es G1 G2 D]; [discriminate|]. inversion A as [|? i ? idx' A1 A2]; subst.
    inversion B as [|? ? ? ? B1 B2]; subst. cbn [map2] in E. injection E as E1 E2. cbn in L.
    destruct (IH ns ss es idx' D E2 A2 B2 ltac:(lia)) as [I1 I2].
    unfold slice_of in *. cbn [map2 source_index]. split; [f_equal; [|exact I1]|constructor; [lia|exact I2]].
    destruct (e - s =? 1) eqn:Q; lia.
Qed.

Lemma broadcast_cut : forall ms fs fe ns ss es, cut ms fs fe -> cut ns ss es -> map2 Z.sub fe fs = map2 Z.sub es ss ->
  length fs = length ss -> broadcastable (slice_of ss es) (slice_of fs fe) = true.
Proof.
  intros ms fs fe ns ss es C. revert ns ss es. induction C as [|m s e ms fs fe H1 H2 _ IH]; intros ns ss es D E L.
  - destruct ss; [|discriminate]. reflexivity.
  - destruct D as [|n s' e' ns ss es G1 G2 D]; [discriminate|]. cbn [map2] in E. injection E as E1 E2. cbn in L.
    unfold slice_of in *. cbn [map2 broadcastable]. rewrite (IH ns) by (assumption || lia).
    replace (e' - s' =? e - s) with true by (symmetry; apply Z.eqb_eq; lia). reflexivity.
Qed.

Lemma cut_assign : forall {A} (to from : ndarray A) ts te fs fe, nd_ok to -> nd_ok from ->
  cut (nd_shape to) ts te -> cut (nd_shape from) fs fe -> map2 Z.sub fe fs = map2 Z.sub te ts -> length fs = length ts ->
  exists r, nd_slice_assign to from ts te fs fe = Ret r /\ nd_ok r /\ nd_shape r = nd_shape to /\
    (forall idx, Forall2 (fun n x => 0 <= x < n) (nd_shape to) idx -> Forall2 Z.le ts idx -> Forall2 Z.lt idx te ->
       nd_get r idx = nd_get from (map2 Z.add (map2 Z.sub idx ts) fs)) /\
    (forall idx, Forall2 (fun n x => 0 <= x < n) (nd_shape to) idx -> ~ (Forall2 Z.le ts idx /\ Forall2 Z.lt idx te) ->
       nd_get r idx = nd_get to idx).
Proof.
  intros A to from ts te fs fe Kt Kf Ct Cf E L. pose proof (nd_ok_nonneg _ Kt) as Pt.
  unfold nd_slice_assign. rewrite (cut_axes _ _ _ Ct). cbn [obind]. rewrite (cut_axes _ _ _ Cf). cbn [obind].
  rewrite (broadcast_cut _ _ _ _ _ _ Cf Ct E L). cbn [oassert obind].
  set (f := fun idx : list Z => if in_slice _ idx then _ else _).
  assert (TOT : exists data, omap f (all_indices (nd_shape to)) = Ret data).
  { assert (Q : forall l, (forall x, In x l -> exists y, f x = Ret y) -> exists data, omap f l = Ret data).
    { induction l as [|a l IHl]; intro H; [exists []; reflexivity|]. destruct (H a (or_introl eq_refl)) as [y Ey].
      destruct IHl as [ys Eys]; [intros; apply H; now right|]. exists (y :: ys). cbn. rewrite Ey. cbn. now rewrite Eys. }
    apply Q. intros idx Hi. apply indices_in in Hi. unfold f. destruct (in_slice _ _) eqn:EI.
    - apply (in_slice_iff _ _ _ _ Ct) in EI. destruct EI as [E1 E2].
      destruct (source_cut _ _ _ _ _ _ idx Cf Ct E E1 E2 L) as [S1 S2]. rewrite S1. now apply get_iff.
    - now apply get_iff. }
  destruct TOT as [data ED]. rewrite ED. cbn [obind]. eexists. split; [reflexivity|].
  assert (LD : Z.of_nat (length data) = zprod (nd_shape to)).
  { rewrite <- (Forall2_length _ _ _ (omap_Forall2 _ _ _ ED)). now apply length_indices. }
  assert (G : forall idx, Forall2 (fun n x => 0 <= x < n) (nd_shape to) idx ->
     nd_get (mkNd (nd_shape to) data) idx = f idx).
  { intros idx H. unfold nd_get. cbn [nd_shape nd_data]. rewrite (proj2 (in_shape_iff _ _) H).
    destruct (omap_nth _ _ _ _ _ ED (nth_indices _ _ H)) as (y & Y1 & Y2). now rewrite Y1. }
  split; [split; [apply Kt|exact LD]|]. split; [reflexivity|]. split.
  - intros idx H H1 H2. rewrite G by assumption. unfold f.
    rewrite (proj2 (in_slice_iff _ _ _ _ Ct) (conj H1 H2)).
    now rewrite (proj1 (source_cut _ _ _ _ _ _ idx Cf Ct E H1 H2 L)).
  - intros idx H N. rewrite G by assumption. unfold f. destruct (in_slice _ _) eqn:EI; [|reflexivity].
    apply (in_slice_iff _ _ _ _ Ct) in EI. tauto.
Qed.

(** ** The overlap of boxes of cells *)
Section Overlap.
Context (r : f32) (HR : res_ok r) (Hr : (bpow radix2 (-21) <= real r)%R).
Notation p := (fun k => point_coord_from_cell_coord F32A k f0 r).

Lemma p_fin : forall k, Z.abs k <= 2 ^ 20 -> is_finite (p k) = true.
Proof. intros k H. exact (proj1 (pcc0 k r HR ltac:(lia))). Qed.

Lemma p_ltb : forall j k, Z.abs j <= 2 ^ 20 -> Z.abs k <= 2 ^ 20 -> fltb (p j) (p k) = (j <? k).
Proof.
  intros j k Hj Hk. pose proof (p_fin j Hj) as Fj. pose proof (p_fin k Hk) as Fk.
  pose proof (is_finite_not_nan _ Fj) as Nj. pose proof (is_finite_not_nan _ Fk) as Nk.
  pose proof (wc_pcc j r HR Hj) as Wj. pose proof (wc_pcc k r HR Hk) as Wk.
  destruct (j <? k) eqn:E.
  - apply Z.ltb_lt in E. destruct (fltb (p j) (p k)) eqn:F; [reflexivity|].
    apply fltb_false_iff in F; try assumption.
    assert (Q : fle (p k) (p j)) by (apply fleb_iff; auto). apply (wc_mono r _ _ HR) in Q. cbv beta in Q. rewrite Wj, Wk in Q. lia.
  - apply Z.ltb_ge in E. destruct (fltb (p j) (p k)) eqn:F; [|reflexivity].
    assert (Q : fle (p j) (p k)). { apply fltb_iff in F. apply fleb_iff. repeat split; try tauto. lra. }
    apply (wc_mono r _ _ HR) in Q. cbv beta in Q. rewrite Wj, Wk in Q. assert (j = k) by lia. subst k.
    apply fltb_iff in F. destruct F as (_ & _ & F). lra.
Qed.

Lemma p_max : forall j k, Z.abs j <= 2 ^ 20 -> Z.abs k <= 2 ^ 20 -> fmax (p j) (p k) = p (Z.max j k).
Proof.
  intros j k Hj Hk. rewrite fmax_if by (apply is_finite_not_nan; now apply p_fin). rewrite p_ltb by assumption.
  destruct (k <? j) eqn:E; [apply Z.ltb_lt in E; now rewrite Z.max_l by lia|apply Z.ltb_ge in E; now rewrite Z.max_r by lia].
Qed.
Lemma p_min : forall j k, Z.abs j <= 2 ^ 20 -> Z.abs k <= 2 ^ 20 -> fmin (p j) (p k) = p (Z.min j k).
Proof.
  intros j k Hj Hk. rewrite fmin_if by (apply is_finite_not_nan; now apply p_fin). rewrite p_ltb by assumption.
  destruct (j <? k) eqn:E; [apply Z.ltb_lt in E; now rewrite Z.min_l by lia|apply Z.ltb_ge in E; now rewrite Z.min_r by lia].
Qed.

Lemma p_thin : forall lo hi, Z.abs lo <= 2 ^ 19 -> Z.abs hi <= 2 ^ 19 ->
  fltb (p hi) (p lo) || relative_eq (p hi) (p lo) = negb (lo <? hi).
Proof.
  intros lo hi Hl Hh. destruct (lo <? hi) eqn:E; cbn [negb].
  - apply Z.ltb_lt in E. destruct (fltb (p hi) (p lo) || relative_eq (p hi) (p lo)) eqn:F; [|reflexivity]. exfalso.
    apply orb_true_iff in F. revert F. apply clearly_below_not_thin.
    destruct (pcc0 lo r HR ltac:(lia)) as [Fl El]. destruct (pcc0 hi r HR ltac:(lia)) as [Fh Eh].
    split; [exact Fl|]. split; [exact Fh|].
    set (x := real (p lo)) in *. set (y := real (p hi)) in *.
    change (bpow radix2 (-24)) with (/ 16777216)%R in *. change (bpow radix2 (-22)) with (/ 4194304)%R.
    change (bpow radix2 (-21)) with (/ 2097152)%R in Hr.
    pose proof (res_ok_pos r HR) as P. change (B2R r) with (real r) in P.
    assert (Bl : (Rabs (IZR lo) <= 524288)%R) by (rewrite <- abs_IZR; now apply (IZR_le _ (2 ^ 19))).
    assert (Bh : (Rabs (IZR hi) <= 524288)%R) by (rewrite <- abs_IZR; now apply (IZR_le _ (2 ^ 19))).
    assert (G : (IZR lo + 1 <= IZR hi)%R) by (rewrite <- plus_IZR; apply IZR_le; lia).
    assert (A1 : (Rabs (x - IZR lo * real r) <= / 32 * real r)%R).
    { eapply Rle_trans; [exact El|]. rewrite <- Rmult_assoc. apply Rmult_le_compat_r; lra. }
    assert (A2 : (Rabs (y - IZR hi * real r) <= / 32 * real r)%R).
    { eapply Rle_trans; [exact Eh|]. rewrite <- Rmult_assoc. apply Rmult_le_compat_r; lra. }
    assert (A3 : (Rabs (IZR lo * real r) <= 524288 * real r)%R).
    { rewrite Rabs_mult, (Rabs_pos_eq (real r)) by lra. apply Rmult_le_compat_r; lra. }
    assert (A4 : (Rabs (IZR hi * real r) <= 524288 * real r)%R).
    { rewrite Rabs_mult, (Rabs_pos_eq (real r)) by lra. apply Rmult_le_compat_r; lra. }
    assert (A5 : (IZR lo * real r + real r <= IZR hi * real r)%R) by nra.
    apply Rabs_le_inv in A1, A2, A3, A4.
    assert (M : (Rmax 1 (Rmax (Rabs x) (Rabs y)) <= 1 + 524289 * real r)%R).
    { apply Rmax_lub; [lra|]. apply Rmax_lub; apply Rabs_le; lra. }
    lra.
  - apply Z.ltb_ge in E. apply orb_true_iff. destruct (Z.eq_dec lo hi) as [->|N].
    + right. apply (relative_refl feps feps). apply is_finite_not_nan. apply p_fin. lia.
    + left. rewrite p_ltb by lia. apply Z.ltb_lt. lia.
Qed.

Definition common (a b c e : list Z) : bool :=
  forallb (fun lh => fst lh <? snd lh) (combine (map2 Z.max a c) (map2 Z.min b e)).

Lemma overlap_cells : forall a b c e, length b = length a -> length c = length a -> length e = length a ->
  Forall (fun x => Z.abs x <= 2 ^ 19) a -> Forall (fun x => Z.abs x <= 2 ^ 19) b ->
  Forall (fun x => Z.abs x <= 2 ^ 19) c -> Forall (fun x => Z.abs x <= 2 ^ 19) e ->
  overlap_loop (map p a) (map p b) (map p c) (map p e) =
  if common a b c e then Some (map p (map2 Z.max a c), map p (map2 Z.min b e)) else None.
Proof.
  induction a as [|x a IH]; intros [|y b] [|z c] [|w e] L1 L2 L3 H1 H2 H3 H4; cbn in L1, L2, L3; try discriminate; [reflexivity|].
  inversion_clear H1. inversion_clear H2. inversion_clear H3. inversion_clear H4.
  cbn [map overlap_loop]. rewrite p_max, p_min by lia. rewrite p_thin by lia. rewrite IH by (assumption || lia).
  unfold common. cbn [map2 combine forallb fst snd]. destruct (Z.max x z <? Z.min y w); cbn [negb andb]; [|reflexivity].
  destruct (forallb _ _); reflexivity.
Qed.

Lemma common_iff : forall a b c e, length b = length a -> length c = length a -> length e = length a ->
  common a b c e = true <-> exists w, in_box (mkCB a b) w /\ in_box (mkCB c e) w.
Proof.
  unfold in_box. cbn [cmin cmax]. induction a as [|x a IH]; intros [|y b] [|z c] [|w e] L1 L2 L3; cbn in L1, L2, L3; try discriminate.
  - split; [|reflexivity]. exists []. repeat split; constructor.
  - unfold common in *. cbn [map2 combine forallb fst snd]. rewrite andb_true_iff, IH, Z.ltb_lt by lia. split.
    + intros (H & u & (U1 & U2) & U3 & U4). exists (Z.max x z :: u). repeat split; constructor; auto; lia.
    + intros (u & (U1 & U2) & U3 & U4). destruct u as [|k u]; [inversion U1|].
      inversion U1; inversion U2; inversion U3; inversion U4; subst. split; [lia|]. exists u. repeat split; assumption.
Qed.

Lemma cells_of : forall c s, length c = length s -> Forall (fun x => Z.abs x <= 2 ^ 19) c -> Forall (fun x => Z.abs x <= 2 ^ 19) s ->
  cell_from_point F32A (map p c) (map p s) r = map2 Z.sub c s.
Proof.
  induction c as [|x c IH]; intros [|y s] L H1 H2; cbn in L; try discriminate; [reflexivity|].
  inversion_clear H1. inversion_clear H2. unfold cell_from_point in *. cbn [map map2]. f_equal.
  - apply span_coord; try assumption; lia.
  - apply IH; try assumption. lia.
Qed.
End Overlap.

Lemma common_cut : forall a b c e, length b = length a -> length c = length a -> length e = length a ->
  common a b c e = true ->
  cut (map2 Z.sub b a) (map2 Z.sub (map2 Z.max a c) a) (map2 Z.sub (map2 Z.min b e) a) /\
  cut (map2 Z.sub e c) (map2 Z.sub (map2 Z.max a c) c) (map2 Z.sub (map2 Z.min b e) c) /\
  map2 Z.sub (map2 Z.sub (map2 Z.min b e) a) (map2 Z.sub (map2 Z.max a c) a) =
  map2 Z.sub (map2 Z.sub (map2 Z.min b e) c) (map2 Z.sub (map2 Z.max a c) c) /\
  length (map2 Z.sub (map2 Z.max a c) a) = length (map2 Z.sub (map2 Z.max a c) c).
Proof.
  induction a as [|x a IH]; intros [|y b] [|z c] [|w e] L1 L2 L3 H; cbn in L1, L2, L3; try discriminate.
  - repeat split; constructor.
  - unfold common in *. cbn [map2 combine forallb fst snd] in H. apply andb_true_iff in H. destruct H as [H H'].
    apply Z.ltb_lt in H. destruct (IH b c e ltac:(lia) ltac:(lia) ltac:(lia) H') as (I1 & I2 & I3 & I4). cbn [map2]. repeat split.
    + constructor; [lia|lia|exact I1].
    + constructor; [lia|lia|exact I2].
    + f_equal; [lia|exact I3].
    + cbn [length]. now rewrite I4.
Qed.

(** A world cell and its index *)
Lemma box_index : forall a b w, length b = length a -> in_box (mkCB a b) w -> in_range (map2 Z.sub b a) (map2 Z.sub w a).
Proof.
  unfold in_box, in_range. cbn [cmin cmax]. induction a as [|x a IH]; intros [|y b] w L [H1 H2]; cbn in L; try discriminate.
  - inversion H1; subst. constructor.
  - inversion H1; subst. inversion H2; subst. cbn [map2]. constructor; [lia|]. apply IH; [lia|]. split; assumption.
Qed.

Lemma both_index : forall a b c e w, length b = length a -> length c = length a -> length e = length a -> in_box (mkCB c e) w ->
  (Forall2 Z.le (map2 Z.sub (map2 Z.max a c) c) (map2 Z.sub w c) /\ Forall2 Z.lt (map2 Z.sub w c) (map2 Z.sub (map2 Z.min b e) c)
   <-> in_box (mkCB a b) w).
Proof.
  unfold in_box. cbn [cmin cmax]. induction a as [|x a IH]; intros [|y b] [|z c] [|u e] w L1 L2 L3 [H1 H2]; cbn in L1, L2, L3; try discriminate.
  - inversion H1; subst. cbn. tauto.
  - inversion H1; subst. inversion H2; subst. cbn [map2].
    match goal with K : Forall2 Z.le c ?w', K' : Forall2 Z.lt ?w' e |- _ => specialize (IH b c e w' ltac:(lia) ltac:(lia) ltac:(lia) (conj K K')) end.
    split; intros [A1 A2]; inversion A1; inversion A2; subst; destruct IH as [I1 I2].
    + destruct I1 as [J1 J2]; [split; assumption|]. split; constructor; auto; lia.
    + destruct I2 as [J1 J2]; [split; assumption|]. split; constructor; auto; lia.
Qed.

Lemma source_of : forall a c w, length c = length a -> length w = length a ->
  map2 Z.add (map2 Z.sub (map2 Z.sub w c) (map2 Z.sub (map2 Z.max a c) c)) (map2 Z.sub (map2 Z.max a c) a) = map2 Z.sub w a.
Proof.
  induction a as [|x a IH]; intros [|z c] [|k w] L1 L2; cbn in L1, L2; try discriminate; [reflexivity|].
  cbn [map2]. f_equal; [lia|]. apply IH; lia.
Qed.

Lemma resize_aligned : forall A d r from to (data : ndarray A) v, (d = 2 \/ d = 3)%nat -> res_ok r -> (bpow radix2 (-21) <= real r)%R ->
  cb_ordered d from -> cb_ordered d to -> cb_near (2 ^ 19) from -> cb_near (2 ^ 19) to ->
  storage_ok data -> nd_shape data = map2 Z.sub (cmax from) (cmin from) ->
  exists a, resized_ndarray data (bounds_from_cell_bounds from r) (bounds_from_cell_bounds to r) r v = Ret a /\
    storage_ok a /\ nd_shape a = map2 Z.sub (cmax to) (cmin to) /\
    (forall w, in_box to w -> in_box from w -> nd_get a (map2 Z.sub w (cmin to)) = nd_get data (map2 Z.sub w (cmin from))) /\
    (forall w, in_box to w -> ~ in_box from w -> nd_get a (map2 Z.sub w (cmin to)) = Ret v).
Proof.
  intros A d r [a b] [c e] data v Hd HR Hr Of Ot Nf Nt K S. cbn [cmin cmax] in *.
  destruct (nwb_ok d r (mkCB c e) v ltac:(lia) HR Ot Nt) as (n & En & Kn & Sn & Gn). cbn [cmin cmax] in Sn.
  unfold resized_ndarray. rewrite En. cbn [obind]. cbv zeta.
  rewrite (bfc_map d (mkCB a b)), (bfc_map d (mkCB c e)) by assumption. cbn [bmin bmax cmin cmax].
  destruct Of as (L1 & L2 & Of), Ot as (L3 & L4 & Ot), Nf as [N1 N2], Nt as [N3 N4]. cbn [cmin cmax] in *.
  unfold bounds_overlapping. cbn [bmin bmax].
  rewrite (overlap_cells r HR Hr a b c e) by (congruence || assumption).
  destruct (common a b c e) eqn:C.
  - cbn [bmin bmax].
    match goal with |- context [bounds_eqb ?x ?y] => assert (NZ : bounds_eqb x y = false) end.
    { destruct (bounds_eqb _ _) eqn:Q; [exfalso|reflexivity].
      destruct a as [|x a]; [cbn in L1; lia|]. destruct b as [|y b]; [cbn in L2; lia|]. destruct c as [|z c]; [cbn in L3; lia|]. destruct e as [|u e]; [cbn in L4; lia|].
      inversion_clear N1. inversion_clear N2. inversion_clear N3. inversion_clear N4.
      apply zero_box_iff in Q; cbn [bmin bmax]; rewrite ?map_length; try (rewrite map2_length; cbn in *; lia).
      destruct Q as [Q1 Q2]. cbn [bmin bmax map2 map] in Q1, Q2. inversion_clear Q1. inversion_clear Q2.
      unfold common in C. cbn [map2 combine forallb fst snd] in C. apply andb_true_iff in C. destruct C as [C _]. apply Z.ltb_lt in C.
      pose proof (wc_pcc (Z.max x z) r HR ltac:(lia)) as W1. pose proof (wc_pcc (Z.min y u) r HR ltac:(lia)) as W2.
      rewrite wc_zero in W1, W2 by assumption. lia. }
    rewrite NZ.
    assert (X1 : Forall (fun x => Z.abs x <= 2 ^ 19) (map2 Z.max a c)) by (apply map2_near; try assumption; intros; lia).
    assert (X2 : Forall (fun x => Z.abs x <= 2 ^ 19) (map2 Z.min b e)) by (apply map2_near; try assumption; intros; lia).
    rewrite !(cells_of r HR) by (try assumption; rewrite map2_length; congruence).
    destruct (common_cut a b c e ltac:(congruence) ltac:(congruence) ltac:(congruence) C) as (C1 & C2 & C3 & C4).
    destruct (cut_assign n data _ _ _ _ Kn K ltac:(rewrite Sn; exact C2) ltac:(rewrite S; exact C1) C3 C4) as (q & Eq & Kq & Sq & G1 & G2).
    exists q. split; [exact Eq|]. split; [exact Kq|]. split; [now rewrite Sq|]. split.
    + intros w Hw Hf. pose proof (box_index c e w ltac:(congruence) Hw) as R. rewrite <- Sn in R.
      destruct (proj2 (both_index a b c e w ltac:(congruence) ltac:(congruence) ltac:(congruence) Hw) Hf) as [B1 B2].
      rewrite (G1 _ R B1 B2). rewrite source_of; [reflexivity|congruence|].
      destruct Hf as [Hf _]. cbn [cmin] in Hf. symmetry. exact (Forall2_length _ _ _ Hf).
    + intros w Hw Hf. pose proof (box_index c e w ltac:(congruence) Hw) as R. rewrite <- Sn in R. rewrite (G2 _ R).
      * now apply Gn.
      * rewrite (both_index a b c e w) by (congruence || assumption). exact Hf.
  - rewrite (map_length _ a). assert (Z0 : bounds_eqb (bounds_empty (length a)) (bounds_empty (length a)) = true).
    { apply zero_box_iff; cbn [bmin bmax bounds_empty]; unfold origin; rewrite ?repeat_length; try reflexivity.
      split; cbn [bmin bmax bounds_empty]; unfold origin; apply Forall_forall; intros x Hx; apply repeat_spec in Hx; subst x; reflexivity. }
    rewrite Z0. exists n. split; [reflexivity|]. split; [assumption|]. split; [assumption|]. split.
    + intros w Hw Hf. exfalso. assert (common a b c e = true); [|congruence].
      apply common_iff; try congruence. exists w. split; assumption.
    + intros w Hw Hf. apply Gn. rewrite Sn. apply box_index; [congruence|assumption].
Qed.

(** ** The same as expanding the map *)
Lemma index_box : forall a b c, length b = length a -> in_range (map2 Z.sub b a) c -> in_box (mkCB a b) (map2 Z.add c a) /\ map2 Z.sub (map2 Z.add c a) a = c.
Proof.
  unfold in_box, in_range. cbn [cmin cmax]. induction a as [|x a IH]; intros [|y b] c L H; cbn in L; try discriminate.
  - inversion H; subst. repeat split; constructor.
  - cbn [map2] in H. inversion H as [|? k ? c' Hk H']; subst. destruct (IH b c' ltac:(lia) H') as ((I1 & I2) & I3).
    cbn [map2]. repeat split; try (constructor; [lia|assumption]). f_equal; [lia|exact I3].
Qed.
Lemma shift_back : forall w a a', length w = length a -> length a' = length a ->
  map2 Z.add (map2 Z.sub w a) (map2 Z.sub a a') = map2 Z.sub w a' /\ map2 Z.sub (map2 Z.sub w a') (map2 Z.sub a a') = map2 Z.sub w a.
Proof.
  induction w as [|x w IH]; intros [|y a] [|z a'] L1 L2; cbn in L1, L2; try discriminate; [auto|].
  destruct (IH a a' ltac:(lia) ltac:(lia)) as [I1 I2]. cbn [map2]. split; f_equal; auto; lia.
Qed.
Lemma range_box : forall a b w, length b = length a -> length w = length a -> in_range (map2 Z.sub b a) (map2 Z.sub w a) -> in_box (mkCB a b) w.
Proof.
  unfold in_box, in_range. cbn [cmin cmax]. induction a as [|x a IH]; intros [|y b] [|k w] L1 L2 H; cbn in L1, L2; try discriminate.
  - split; constructor.
  - cbn [map2] in H. inversion H; subst. destruct (IH b w ltac:(lia) ltac:(lia)) as [I1 I2]; [assumption|]. split; constructor; auto; lia.
Qed.

Lemma resize_expand : forall A d r t (g : grid_map A) b v g', map_range d r t -> (bpow radix2 (-21) <= real r)%R ->
  reachable d r t g -> request_ok d r b -> gm_expand_bounds g b v = Ret g' ->
  exists a, resized_ndarray (gm_data g) (gm_bounds g) (gm_bounds g') r v = Ret a /\ nd_shape a = nd_shape (gm_data g') /\
    forall c, in_range (nd_shape a) c -> nd_get a c = nd_get (gm_data g') c.
Proof.
  intros A d r t g b v g' MR Hr RE RQ E. destruct (wf_of_reachable d r t g MR RE) as [cb W].
  destruct (expand_spec d r t g cb b v MR W RQ) as (db & cb' & g2 & _ & S). cbv zeta in S.
  destruct S as (_ & _ & E2 & _ & W' & _ & _ & S1 & S2). rewrite E in E2. injection E2 as <-.
  destruct MR as (Hd & HR & Ht). destruct W as [_ _ Wo _ Wn Wb Ws Wst]. destruct W' as [_ _ Wo' _ Wn' Wb' Ws' Wst'].
  destruct (resize_aligned A d r cb cb' (gm_data g) v Hd HR Hr Wo Wo'
     (near_weaken _ (2 ^ 19) _ Wn ltac:(unfold KB; lia)) (near_weaken _ (2 ^ 19) _ Wn' ltac:(unfold KB; lia)) Wst Ws) as (a & Ea & Ka & Sa & G1 & G2).
  exists a. rewrite Wb, Wb'. split; [exact Ea|]. split; [congruence|].
  destruct cb as [m n], cb' as [m' n']. destruct Wo as (L1 & L2 & _), Wo' as (L3 & L4 & _). cbn [cmin cmax] in *.
  intros c Hc. rewrite Sa in Hc. destruct (index_box m' n' c ltac:(congruence) Hc) as [B I].
  set (w := map2 Z.add c m') in *. assert (Lw : length w = d).
  { destruct B as [B _]. cbn [cmin] in B. apply Forall2_length in B. congruence. }
  destruct (shift_back w m m' ltac:(congruence) ltac:(congruence)) as [F1 F2].
  rewrite <- Ws' in Hc. rewrite <- I in Hc |- *.
  assert (D : in_box (mkCB m n) w \/ ~ in_box (mkCB m n) w).
  { destruct (in_shape (map2 Z.sub n m) (map2 Z.sub w m)) eqn:Q.
    - left. apply in_shape_iff in Q. apply range_box; try congruence. exact Q.
    - right. intro H. apply box_index in H; [|congruence]. apply in_shape_iff in H. congruence. }
  destruct D as [D|D].
  - rewrite (G1 w B D). rewrite <- F1. symmetry. apply S1. rewrite Ws. apply box_index; [congruence|exact D].
  - rewrite (G2 w B D). symmetry. apply S2; [exact Hc|]. rewrite F2, Ws. intro H. apply D. apply range_box; first [congruence|exact H].
Qed.
