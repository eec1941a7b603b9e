(** Which boxes give maps that can be expanded, by the positions of their corners. *)
From Coq Require Import ZArith List Bool Reals Lra Lia Psatz Classical.
From Flocq Require Import Core BinarySingleNaN.
From Verif Require Import Base F32 FloatFacts RoundError Arith Geom NdArray GridMap Spec SpecMap SpecBuilt ConverterProofs GeomProofs BoundsProofs NdProofs GridProofs
  ExpandProofs UnalignedProofs MapProofs BuiltProofs AlignProofs.
Open Scope R_scope.

(** ** One axis *)
Lemma number_near : forall r x, res_ok r -> within_cells (2 ^ 18) r x -> Rabs (IZR (wc r x) - real x / real r) <= / 2 + / 16.
Proof.
  intros r x HR [F W]. assert (P : 0 < real r) by exact (res_ok_pos r HR). change (IZR (2 ^ 18)) with 262144 in W.
  pose proof (nearest1 x f0 r HR F eq_refl) as N. cbv zeta in N. fold (wc r x) in N. change (real f0) with 0 in N.
  rewrite Rminus_0_r, Rplus_0_r in N. change (IZR (2 ^ 26)) with 67108864 in N. specialize (N ltac:(lra)).
  change (bpow radix2 (-22)) with (/ 4194304) in N.
  replace (IZR (wc r x) * real r - real x) with ((IZR (wc r x) - real x / real r) * real r) in N by (field; lra).
  rewrite Rabs_mult, (Rabs_pos_eq (real r)) in N by lra.
  apply Rmult_le_reg_r with (real r); [exact P|]. eapply Rle_trans; [exact N|]. lra.
Qed.

Lemma number_is : forall r n f x, res_ok r -> within_cells (2 ^ 18) r x -> off_centre r n f x -> wc r x = n.
Proof.
  intros r n f x HR W [E Hf]. assert (P : 0 < real r) by exact (res_ok_pos r HR).
  pose proof (number_near r x HR W) as N. replace (real x / real r) with (IZR n + f) in N by (rewrite E; field; lra).
  apply Rabs_le_inv in N. apply Rabs_lt_inv in Hf.
  assert (A : (n - 1 < wc r x)%Z) by (apply lt_IZR; rewrite minus_IZR; lra).
  assert (B : (wc r x < n + 1)%Z) by (apply lt_IZR; rewrite plus_IZR; lra). lia.
Qed.

Lemma extent_near : forall r lo hi, res_ok r -> within_cells (2 ^ 18) r lo -> within_cells (2 ^ 18) r hi ->
  Rabs (IZR (cell_coord_from_point_coord F32A hi lo r) - (real hi - real lo) / real r) <= / 2 + / 8.
Proof.
  intros r lo hi HR [Fl Wl] [Fh Wh]. assert (P : 0 < real r) by exact (res_ok_pos r HR).
  change (IZR (2 ^ 18)) with 262144 in *.
  assert (D : Rabs (real hi - real lo) <= 524288 * real r).
  { apply Rabs_le_inv in Wl. apply Rabs_le_inv in Wh. apply Rabs_le. lra. }
  pose proof (nearest1 hi lo r HR Fh Fl) as N. cbv zeta in N. change (IZR (2 ^ 26)) with 67108864 in N. specialize (N ltac:(lra)).
  change (bpow radix2 (-22)) with (/ 4194304) in N. set (c := IZR (cell_coord_from_point_coord F32A hi lo r)) in *.
  replace (c * real r + real lo - real hi) with ((c - (real hi - real lo) / real r) * real r) in N by (field; lra).
  rewrite Rabs_mult, (Rabs_pos_eq (real r)) in N by lra.
  apply Rmult_le_reg_r with (real r); [exact P|]. eapply Rle_trans; [exact N|]. lra.
Qed.

Lemma axis_fits : forall r lo hi m n f h, res_ok r -> within_cells (2 ^ 18) r lo -> within_cells (2 ^ 18) r hi ->
  off_centre r m f lo -> off_centre r n h hi ->
  (f - h < 3 / 8 -> (wc r hi - wc r lo <= cell_coord_from_point_coord F32A hi lo r)%Z) /\
  (5 / 8 < f - h -> (cell_coord_from_point_coord F32A hi lo r < wc r hi - wc r lo)%Z).
Proof.
  intros r lo hi m n f h HR Wl Wh Ol Oh. assert (P : 0 < real r) by exact (res_ok_pos r HR).
  rewrite (number_is r m f lo HR Wl Ol), (number_is r n h hi HR Wh Oh).
  pose proof (extent_near r lo hi HR Wl Wh) as N. destruct Ol as [El _], Oh as [Eh _].
  replace ((real hi - real lo) / real r) with (IZR n + h - (IZR m + f)) in N by (rewrite El, Eh; field; lra).
  apply Rabs_le_inv in N. split; intro H.
  - assert (A : (n - m - 1 < cell_coord_from_point_coord F32A hi lo r)%Z) by (apply lt_IZR; rewrite !minus_IZR; lra). lia.
  - apply lt_IZR. rewrite minus_IZR. lra.
Qed.

Section Fits.
Context {A : Type}.
Implicit Types g : grid_map A.

Lemma sizes_nth : forall d r t b g i, built r t b g -> ordered d b -> (i < d)%nat ->
  nth i (nd_shape (gm_data g)) 0%Z = cell_coord_from_point_coord F32A (nth i (bmax b) f0) (nth i (bmin b) f0) r /\
  nth i (map2 Z.sub (map (wc r) (bmax b)) (map (wc r) (bmin b))) 0%Z = (wc r (nth i (bmax b) f0) - wc r (nth i (bmin b) f0))%Z.
Proof.
  intros d r t b g i B (L1 & L2 & _) Hi. split.
  - rewrite (over_shape d r t b g (built_over d r t b g B)). unfold cell_from_point. refine (nth_map2 _ _ _ i f0 f0 0%Z _ _); [congruence|rewrite L2; lia].
  - rewrite (nth_map2 Z.sub _ _ i 0%Z 0%Z) by (rewrite !map_length; congruence || (rewrite L2; lia)).
    rewrite (nth_indep (map (wc r) (bmax b)) 0%Z (wc r f0)), (nth_indep (map (wc r) (bmin b)) 0%Z (wc r f0)), !map_nth by (rewrite map_length; lia). reflexivity.
Qed.

Lemma sizes_length : forall d r t b g, built r t b g -> ordered d b ->
  length (map2 Z.sub (map (wc r) (bmax b)) (map (wc r) (bmin b))) = d /\ length (nd_shape (gm_data g)) = d.
Proof.
  intros d r t b g B (L1 & L2 & _). split.
  - rewrite map2_length by (rewrite !map_length; congruence). now rewrite map_length.
  - rewrite (over_shape d r t b g (built_over d r t b g B)), cfp_length; congruence.
Qed.

Lemma within_nth : forall n r (l : list f32) i, Forall (within_cells n r) l -> (i < length l)%nat -> within_cells n r (nth i l f0).
Proof. intros n r l i F Hi. rewrite Forall_forall in F. apply F. now apply nth_In. Qed.

(** ** Boxes that fit *)
Lemma fits : forall d r t b g b' (v : A), map_range d r t -> request_ok d r b -> built r t b g -> request_ok d r b' ->
  (forall i, (i < d)%nat -> exists f h, corners_off r b i f h /\ f - h < 3 / 8) ->
  exists g', gm_expand_bounds g b' v = Ret g'.
Proof.
  intros d r t b g b' v M RB B RQ H. pose proof M as (Hd & HR & Ht). pose proof RQ as (OQ & _). pose proof RB as (OB & N1 & N2). pose proof OB as (L1 & L2 & _).
  destruct (bounds_discretized_spec d b' r true (proj1 HR) (res_ok_pos r HR) OQ) as (db & Edb & _).
  destruct (built_expandable d r t b g b' v db M RB B RQ Edb) as [X _]. apply X. right. right.
  destruct (request_finite d r b RB) as [F1 F2]. rewrite cells_map by assumption. cbn [cmin cmax].
  destruct (sizes_length d r t b g B OB) as [S1 S2].
  apply (proj2 (Forall2_nth_iff Z.le 0%Z 0%Z _ _ (eq_trans S1 (eq_sym S2)))). intros i Hi. rewrite S1 in Hi.
  destruct (sizes_nth d r t b g i B OB Hi) as [E1 E2]. rewrite E1, E2.
  destruct (H i Hi) as (f & h & ([m Om] & [n On]) & L).
  apply (axis_fits r _ _ m n f h HR); auto; (apply within_nth; [assumption|lia]).
Qed.

(** ** Boxes that do not *)
Lemma does_not_fit : forall d r t b g b' (v : A) i j f h, map_range d r t -> request_ok d r b -> built r t b g -> request_ok d r b' ->
  (i < d)%nat -> corners_off r b i f h -> 5 / 8 < f - h -> (j < d)%nat -> leaves r b b' j ->
  gm_expand_bounds g b' v = Panic.
Proof.
  intros d r t b g b' v i j f h M RB B RQ Hi ([m Om] & [n On]) L Hj Lv. pose proof M as (Hd & HR & Ht). pose proof RQ as (OQ & Q1 & Q2). pose proof RB as (OB & N1 & N2).
  assert (P : 0 < real r) by exact (res_ok_pos r HR).
  destruct OB as (L1 & L2 & OO). assert (OB : ordered d b) by (split; [|split]; assumption). destruct OQ as (K1 & K2 & OO'). assert (OQ : ordered d b') by (split; [|split]; assumption).
  destruct (bounds_discretized_spec d b' r true (proj1 HR) P OQ) as (db & Edb & OD & _).
  destruct (built_expandable d r t b g b' v db M RB B RQ Edb) as [X Y]. apply Y. intros g' E. 
  destruct (request_finite d r b RB) as [F1 F2]. destruct (disc_finite d r b' db HR RQ Edb) as [F3 F4].
  destruct (proj1 X (ex_intro _ g' E)) as [Z0|[[_ S]|S]].
  - destruct Z0 as [Z1 Z2].
    assert (zero : forall l, Forall finite l -> Forall (fun x => feqb x f0 = true) l -> (i < length l)%nat -> real (nth i l f0) = 0).
    { intros l Fl Zl Hl. rewrite Forall_forall in Fl, Zl. pose proof (Zl _ (nth_In l f0 Hl)) as Q. pose proof (Fl _ (nth_In l f0 Hl)) as Q'.
      unfold feqb, Beqb in Q. destruct (nth i l f0) as [s|s| |s k e Hx]; try discriminate Q'; [reflexivity|]. destruct s; discriminate Q. }
    destruct Om as [Em Am], On as [En An]. apply Rabs_lt_inv in Am. apply Rabs_lt_inv in An.
    rewrite (zero (bmin b) F1 Z1) in Em by lia. rewrite (zero (bmax b) F2 Z2) in En by lia.
    assert (Em' : IZR m + f = 0) by (apply Rmult_eq_reg_r with (real r); lra).
    assert (En' : IZR n + h = 0) by (apply Rmult_eq_reg_r with (real r); lra).
    assert (Q : (n - m < 1)%Z) by (apply lt_IZR; rewrite minus_IZR; lra).
    assert (Q' : (0 < n - m)%Z) by (apply lt_IZR; rewrite minus_IZR; lra). lia.
  - rewrite !cells_map in S by assumption. destruct S as [S1 S2]. cbn [cmin cmax] in S1, S2.
    unfold bounds_discretized in Edb. rewrite bounds_new_iff in Edb by (rewrite !map_length; congruence). destruct Edb as [_ ->]. cbn [bmin bmax] in S1, S2.
    assert (T1 : (wc r (nth j (bmin b) f0) <= wc r (fdisc_min1 r (nth j (bmin b') f0)))%Z).
    { pose proof (proj1 (Forall2_nth_iff Z.le (wc r f0) (wc r (fdisc_min1 r f0)) _ _ (Forall2_length _ _ _ S1)) S1 j) as T.
      rewrite !map_length in T. specialize (T ltac:(lia)). now rewrite !map_nth in T. }
    assert (T2 : (wc r (fdisc_max1 r true (nth j (bmax b') f0)) <= wc r (nth j (bmax b) f0))%Z).
    { pose proof (proj1 (Forall2_nth_iff Z.le (wc r (fdisc_max1 r true f0)) (wc r f0) _ _ (Forall2_length _ _ _ S2)) S2 j) as T.
      rewrite !map_length in T. specialize (T ltac:(lia)). now rewrite !map_nth in T. }
    apply IZR_le in T1. apply IZR_le in T2.
    pose proof (within_nth _ r (bmin b) j N1 ltac:(lia)) as W1. pose proof (within_nth _ r (bmax b) j N2 ltac:(lia)) as W2.
    pose proof (within_nth _ r (bmin b') j Q1 ltac:(lia)) as W3. pose proof (within_nth _ r (bmax b') j Q2 ltac:(lia)) as W4.
    pose proof (number_near r _ HR W1) as D1. pose proof (number_near r _ HR W2) as D2. apply Rabs_le_inv in D1. apply Rabs_le_inv in D2.
    pose proof (lower_number r _ HR W3) as D3. pose proof (upper_number r _ HR W4) as D4.
    assert (mono : forall x y, x + real r <= y -> x / real r + 1 <= y / real r).
    { intros x y Hxy. apply Rmult_le_reg_r with (real r); [exact P|]. replace (y / real r * real r) with y by (field; lra).
      replace ((x / real r + 1) * real r) with (x + real r) by (field; lra). exact Hxy. }
    destruct Lv as [Lv|Lv].
    + assert (Lv' : real (nth j (bmin b') f0) + real r <= real (nth j (bmin b) f0)) by lra. apply mono in Lv'. lra.
    + apply mono in Lv. lra.
  - rewrite cells_map in S by assumption. cbn [cmin cmax] in S. destruct (sizes_length d r t b g B OB) as [S1 S2].
    pose proof (proj1 (Forall2_nth_iff Z.le 0%Z 0%Z _ _ (eq_trans S1 (eq_sym S2))) S i) as T. rewrite S1 in T. specialize (T Hi).
    destruct (sizes_nth d r t b g i B OB Hi) as [E1 E2]. rewrite E1, E2 in T.
    destruct (axis_fits r (nth i (bmin b) f0) (nth i (bmax b) f0) m n f h HR) as [_ Q]; auto; try (apply within_nth; [assumption|lia]).
    specialize (Q L). lia.
Qed.

(** ** What is kept *)
Lemma axis_loses : forall r lo hi m n f h, res_ok r -> within_cells (2 ^ 18) r lo -> within_cells (2 ^ 18) r hi ->
  off_centre r m f lo -> off_centre r n h hi ->
  (- (3 / 8) < f - h -> (cell_coord_from_point_coord F32A hi lo r <= wc r hi - wc r lo)%Z) /\
  (f - h < - (5 / 8) -> (wc r hi - wc r lo < cell_coord_from_point_coord F32A hi lo r)%Z).
Proof.
  intros r lo hi m n f h HR Wl Wh Ol Oh. assert (P : 0 < real r) by exact (res_ok_pos r HR).
  rewrite (number_is r m f lo HR Wl Ol), (number_is r n h hi HR Wh Oh).
  pose proof (extent_near r lo hi HR Wl Wh) as N. destruct Ol as [El _], Oh as [Eh _].
  replace ((real hi - real lo) / real r) with (IZR n + h - (IZR m + f)) in N by (rewrite El, Eh; field; lra).
  apply Rabs_le_inv in N. split; intro H.
  - assert (X : (cell_coord_from_point_coord F32A hi lo r < n - m + 1)%Z) by (apply lt_IZR; rewrite plus_IZR, minus_IZR; lra). lia.
  - apply lt_IZR. rewrite minus_IZR. lra.
Qed.

Lemma add_sub : forall (c m : list Z), length c = length m -> map2 Z.sub (map2 Z.add c m) m = c.
Proof. induction c as [|x c IH]; intros [|y m] L; cbn in *; try discriminate; [reflexivity|]. f_equal; [lia|]. apply IH. lia. Qed.

Lemma wc_nth : forall r (l : list f32) i, (i < length l)%nat -> nth i (map (wc r) l) 0%Z = wc r (nth i l f0).
Proof. intros r l i Hi. rewrite (nth_indep _ 0%Z (wc r f0)) by now rewrite map_length. apply map_nth. Qed.

(** Index [c] of the old map is world cell [c + m], and in the box iff the number on each
    axis is below the number of cells between the corners. *)
Lemma kept : forall d r t b g b' (v : A) g', map_range d r t -> request_ok d r b -> built r t b g -> request_ok d r b' ->
  gm_expand_bounds g b' v = Ret g' -> g' <> g ->
  (forall i, (i < d)%nat -> exists f h, corners_off r b i f h) ->
  exists cb' m, covers_cells d r t g' cb' /\ Forall2 (fun k x => exists f, off_centre r k f x) m (bmin b) /\
  ((forall i f h, (i < d)%nat -> corners_off r b i f h -> - (3 / 8) < f - h) ->
   forall c, in_range (nd_shape (gm_data g)) c -> gm_get g' (map2 Z.sub (map2 Z.add c m) (cmin cb')) = gm_get g c) /\
  (forall i f h c, (i < d)%nat -> corners_off r b i f h -> f - h < - (5 / 8) ->
   in_range (nd_shape (gm_data g)) c -> nth i c 0%Z = (nth i (nd_shape (gm_data g)) 0 - 1)%Z ->
   in_box cb' (map2 Z.add c m) -> gm_get g' (map2 Z.sub (map2 Z.add c m) (cmin cb')) = Ret v).
Proof.
  intros d r t b g b' v g' M RB B RQ E NE OC. pose proof M as (Hd & HR & Ht). pose proof RB as (OB & N1 & N2). pose proof OB as (L1 & L2 & _).
  destruct (built_contents d r t b g b' v g' M RB B RQ E NE) as (cb' & Cv & _ & K1 & K2).
  destruct (request_finite d r b RB) as [F1 F2]. rewrite cells_map in K1, K2 by assumption. cbn [cmin] in K1.
  destruct (sizes_length d r t b g B OB) as [S1 S2].
  exists cb', (map (wc r) (bmin b)). split; [exact Cv|]. split; [|split].
  - apply (proj2 (Forall2_nth_iff _ 0%Z f0 _ _ (map_length _ _))). intros i Hi. rewrite map_length, L1 in Hi.
    rewrite wc_nth by lia. destruct (OC i Hi) as (f & h & (n & O) & _). exists f.
    rewrite (number_is r n f _ HR (within_nth _ r _ i N1 ltac:(lia)) O). exact O.
  - intros H c Hc. pose proof (Forall2_length _ _ _ Hc) as LC. 
    assert (LM : length c = length (map (wc r) (bmin b))) by (rewrite map_length; lia).
    assert (LA : length (map (wc r) (bmin b)) = length (map2 Z.add c (map (wc r) (bmin b)))) by (rewrite map2_length by exact LM; now rewrite LM).
    assert (LB : length (map2 Z.add c (map (wc r) (bmin b))) = length (map (wc r) (bmax b))) by (rewrite <- LA, !map_length; congruence).
    rewrite K1; [now rewrite (add_sub c _ LM)|]. split; cbn [cmin cmax].
    + apply (proj2 (Forall2_nth_iff Z.le 0%Z 0%Z _ _ LA)). intros i Hi. rewrite map_length in Hi.
      rewrite (nth_map2 Z.add c _ i 0%Z 0%Z 0%Z LM) by (rewrite LM, map_length; exact Hi).
      pose proof (proj1 (Forall2_nth_iff _ 0%Z 0%Z _ _ LC) Hc i ltac:(lia)) as Q. cbv beta in Q. lia.
    + apply (proj2 (Forall2_nth_iff Z.lt 0%Z 0%Z _ _ LB)). intros i Hi.
      rewrite map2_length in Hi by exact LM. assert (Hid : (i < d)%nat) by lia.
      rewrite (nth_map2 Z.add c _ i 0%Z 0%Z 0%Z LM) by exact Hi.
      pose proof (proj1 (Forall2_nth_iff _ 0%Z 0%Z _ _ LC) Hc i ltac:(lia)) as Q. cbv beta in Q.
      destruct (sizes_nth d r t b g i B OB Hid) as [E1 _]. rewrite E1 in Q. rewrite !wc_nth by lia.
      destruct (OC i Hid) as (f & h & O). pose proof (H i f h Hid O) as L. destruct O as [[m Om] [n On]].
      destruct (axis_loses r (nth i (bmin b) f0) (nth i (bmax b) f0) m n f h HR) as [X _]; auto; try (apply within_nth; [assumption|lia]).
      specialize (X L). lia.
  - intros i f h c Hi O L Hc Ec Ib. apply K2; [exact Ib|]. intros [_ Y]. cbn [cmax] in Y. pose proof (Forall2_length _ _ _ Hc) as LC.
    assert (LM : length c = length (map (wc r) (bmin b))) by (rewrite map_length; lia).
    pose proof (proj1 (Forall2_nth_iff Z.lt 0%Z 0%Z _ _ (Forall2_length _ _ _ Y)) Y i) as Q. rewrite map2_length in Q by exact LM. specialize (Q ltac:(lia)).
    rewrite (nth_map2 Z.add c _ i 0%Z 0%Z 0%Z LM) in Q by lia. rewrite !wc_nth in Q by lia.
    destruct (sizes_nth d r t b g i B OB Hi) as [E1 _]. rewrite Ec, E1 in Q.
    destruct O as [[m Om] [n On]].
    destruct (axis_loses r (nth i (bmin b) f0) (nth i (bmax b) f0) m n f h HR) as [_ X]; auto; try (apply within_nth; [assumption|lia]).
    specialize (X L). lia.
Qed.

Lemma off_unique : forall r m n f h x, res_ok r -> within_cells (2 ^ 18) r x -> off_centre r m f x -> off_centre r n h x -> f = h.
Proof.
  intros r m n f h x HR W O1 O2. assert (P : 0 < real r) by exact (res_ok_pos r HR).
  pose proof (number_is r m f x HR W O1) as E1. pose proof (number_is r n h x HR W O2) as E2. destruct O1 as [X1 _], O2 as [X2 _].
  rewrite <- E1 in X1. rewrite <- E2 in X2. rewrite X1 in X2.
  pose proof (Rmult_eq_reg_r (real r) _ _ X2 ltac:(apply Rgt_not_eq; exact P)) as Y. apply Rplus_eq_reg_l in Y. exact Y.
Qed.

Lemma kept_all : forall d r t b g b' (v : A), map_range d r t -> request_ok d r b -> built r t b g -> request_ok d r b' ->
  (forall i, (i < d)%nat -> exists f h, corners_off r b i f h /\ Rabs (f - h) < 3 / 8) ->
  exists g', gm_expand_bounds g b' v = Ret g' /\
  (g' = g \/ exists cb' m, covers_cells d r t g' cb' /\ Forall2 (fun k x => exists f, off_centre r k f x) m (bmin b) /\
   forall c, in_range (nd_shape (gm_data g)) c -> gm_get g' (map2 Z.sub (map2 Z.add c m) (cmin cb')) = gm_get g c).
Proof.
  intros d r t b g b' v M RB B RQ H. pose proof M as (Hd & HR & Ht). pose proof RB as ((L1 & L2 & _) & N1 & N2).
  destruct (fits d r t b g b' v M RB B RQ) as [g' E].
  { intros i Hi. destruct (H i Hi) as (f & h & O & L). exists f, h. split; [exact O|]. apply Rabs_lt_inv in L. lra. }
  exists g'. split; [exact E|]. destruct (classic (g' = g)) as [Q|Q]; [now left|right].
  destruct (kept d r t b g b' v g' M RB B RQ E Q) as (cb' & m & Cv & Fm & K & _).
  { intros i Hi. destruct (H i Hi) as (f & h & O & _). eauto. }
  exists cb', m. split; [exact Cv|]. split; [exact Fm|]. apply K. intros i f h Hi [[n1 O1] [n2 O2]].
  destruct (H i Hi) as (f' & h' & [[n1' O1'] [n2' O2']] & L).
  assert (E1 : f = f') by (eapply off_unique; [exact HR|apply (within_nth _ r (bmin b) i N1); lia|exact O1|exact O1']).
  assert (E2 : h = h') by (eapply off_unique; [exact HR|apply (within_nth _ r (bmax b) i N2); lia|exact O2|exact O2']).
  subst. apply Rabs_lt_inv in L. lra.
Qed.

Lemma lost_last : forall d r t b g b' (v : A) g' i f h, map_range d r t -> request_ok d r b -> built r t b g -> request_ok d r b' ->
  (forall j, (j < d)%nat -> exists f h, corners_off r b j f h) ->
  (i < d)%nat -> corners_off r b i f h -> f - h < - (5 / 8) ->
  gm_expand_bounds g b' v = Ret g' -> g' <> g ->
  exists cb' m, covers_cells d r t g' cb' /\ Forall2 (fun k x => exists f, off_centre r k f x) m (bmin b) /\
  forall c, in_range (nd_shape (gm_data g)) c -> nth i c 0%Z = (nth i (nd_shape (gm_data g)) 0 - 1)%Z ->
  in_box cb' (map2 Z.add c m) -> gm_get g' (map2 Z.sub (map2 Z.add c m) (cmin cb')) = Ret v.
Proof.
  intros d r t b g b' v g' i f h M RB B RQ H Hi O L E Q.
  destruct (kept d r t b g b' v g' M RB B RQ E Q H) as (cb' & m & Cv & Fm & _ & K).
  exists cb', m. split; [exact Cv|]. split; [exact Fm|]. intros c Hc Ec Ib. exact (K i f h c Hi O L Hc Ec Ib).
Qed.
End Fits.
