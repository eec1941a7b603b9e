(** Maps in another unit. *)
From Coq Require Import ZArith List Bool Reals Lia Lra.
From Flocq Require Import Core BinarySingleNaN.
From Verif Require Import Base F32 FloatFacts Arith Geom NdArray GridMap RayCaster NoiseModel Spec SpecScale NdProofs RayProofs CastProofs RayRange ScaleFacts ScaleProofs.
Open Scope R_scope.

Notation corner k := (sc k (-59) (-59) 84).
Lemma coordinate_corner : forall k x x', coordinate k x x' -> corner k x x'.
Proof. intros k x x'. apply sc_weaken; lia. Qed.
Lemma corners : forall k p p', Forall2 (coordinate k) p p' -> Forall2 (corner k) p p'.
Proof. intros k p p' H. induction H; constructor; [now apply coordinate_corner|assumption]. Qed.
Lemma corner_cell : forall k p p' b b' r r', corner k p p' -> corner k b b' -> sc k (-43) (-20) 20 r r' -> 0 < B2R r ->
  cell_coord_from_point_coord F32A p' b' r' = cell_coord_from_point_coord F32A p b r.
Proof.
  intros k p p' b b' r r' P B R R0. unfold cell_coord_from_point_coord. cbn [t_to_isize tround tdiv tsub F32A].
  pose proof (sc_sub2 (-59) 84 k (-59) (-59) 84 (-59) (-59) 84 _ _ _ _ ltac:(lia) ltac:(lia) ltac:(lia) ltac:(lia) ltac:(lia) ltac:(lia) ltac:(lia) ltac:(lia) P B) as S.
  pose proof (sc_div k (-59) (-59) 85 k (-43) (-20) 20 _ _ _ _ ltac:(lia) ltac:(lia) S R ltac:(lra)) as ((F & _) & (F' & _) & E).
  rewrite !round_to_isize by (now apply is_finite_not_nan). rewrite !ext_finite by assumption. rewrite E. replace (k - k)%Z with 0%Z by lia. change (bp 0) with 1. now rewrite Rmult_1_r.
Qed.
Lemma corner_cells : forall k (p p' b b' : point) r r', Forall2 (corner k) p p' -> Forall2 (corner k) b b' -> sc k (-43) (-20) 20 r r' -> 0 < B2R r ->
  cell_from_point F32A p' b' r' = cell_from_point F32A p b r.
Proof.
  intros k p p' b b' r r' P B R R0. revert b b' B. unfold cell_from_point. induction P as [|x x' p p' Hx P IH]; intros b b' B; [reflexivity|]. destruct B as [|y y' b b' Hy B]; [reflexivity|].
  cbn [map2]. f_equal; [now apply (corner_cell k)|now apply IH].
Qed.
Lemma sc_leb : forall k g l u g2 l2 u2 x x' y y', sc k g l u x x' -> sc k g2 l2 u2 y y' -> fleb x' y' = fleb x y.
Proof.
  intros k g l u g2 l2 u2 x x' y y' ((F & _) & (F' & _) & E) ((G & _) & (G' & _) & E2).
  rewrite !fleb_ext by (now apply is_finite_not_nan). rewrite !ext_finite by assumption. rewrite E, E2. pose proof (bpow_gt_0 radix2 k) as K.
  case (Rle_bool_spec (B2R x) (B2R y)); intro H; [apply Rle_bool_true|apply Rle_bool_false]; [apply Rmult_le_compat_r; lra|now apply Rmult_lt_compat_r].
Qed.
Lemma sc_eqb : forall k g l u g2 l2 u2 x x' y y', sc k g l u x x' -> sc k g2 l2 u2 y y' -> feqb x' y' = feqb x y.
Proof.
  intros k g l u g2 l2 u2 x x' y y' ((F & _) & (F' & _) & E) ((G & _) & (G' & _) & E2).
  rewrite !feqb_ext by (now apply is_finite_not_nan). rewrite !ext_finite by assumption. rewrite E, E2. pose proof (bpow_gt_0 radix2 k) as K.
  case (Req_bool_spec (B2R x) (B2R y)); intro H; [apply Req_bool_true; now rewrite H|apply Req_bool_false]. intro Q. apply H. apply Rmult_eq_reg_r with (bp k); lra.
Qed.

(** ** Rounding corners to the grid *)
Lemma same_number : forall g l u c c', sc 0 g l u c c' -> c' = c \/ (c = f0 \/ c = fneg f0) /\ (c' = f0 \/ c' = fneg f0).
Proof.
  intros g l u c c' ((F & _) & (F' & _) & E). change (bp 0) with 1 in E. rewrite Rmult_1_r in E.
  destruct (Req_dec (B2R c) 0) as [Z0|N].
  - right. rewrite Z0 in E. assert (A : forall x : f32, is_finite x = true -> B2R x = 0 -> x = f0 \/ x = fneg f0).
    { intros [s|s| |s m e H] Fx Zx; try discriminate Fx; [destruct s; [now right|now left]|]. exfalso. cbn in Zx. unfold F2R in Zx. cbn [Fnum Fexp] in Zx. apply Rmult_integral in Zx. destruct Zx as [Zx|Zx]; [|pose proof (bpow_gt_0 radix2 e); lra].
      destruct s; cbn [SpecFloat.cond_Zopp] in Zx; apply eq_IZR in Zx; discriminate Zx. }
    split; now apply A.
  - left. apply B2R_inj; try exact E; [|]; unfold is_finite_strict.
    + destruct c' as [s|s| |s m e H]; try discriminate F'; try reflexivity. exfalso. apply N. rewrite <- E. reflexivity.
    + destruct c as [s|s| |s m e H]; try discriminate F; try reflexivity. exfalso. now apply N.
Qed.
Lemma relative_scaled : forall g l u c c', sc 0 g l u c c' -> relative_eq c' (fround c') = relative_eq c (fround c).
Proof. intros g l u c c' H. destruct (same_number _ _ _ _ _ H) as [->|[[-> | ->] [-> | ->]]]; reflexivity. Qed.
Lemma cells_of : forall k v v' r r', coordinate k v v' -> sc k (-43) (-20) 20 r r' -> 0 < B2R r -> sc 0 (-79) (-56) 40 (fdiv v r) (fdiv v' r').
Proof.
  intros k v v' r r' V R R0. pose proof (sc_div k (-59) (-36) 20 k (-43) (-20) 20 v v' r r' ltac:(lia) ltac:(lia) V R ltac:(lra)) as D. now replace (k - k)%Z with 0%Z in D by lia.
Qed.
Lemma int_scaled : forall f (z : f32 -> Z) c c', (forall x : f32, is_finite x = true -> is_finite (f x) = true /\ B2R (f x) = IZR (z x)) ->
  (forall x y : f32, B2R x = B2R y -> z x = z y) -> (forall x : f32, Rabs (B2R x) <= bp 40 -> IZR (Z.abs (z x)) <= bp 41) -> sc 0 (-79) (-56) 40 c c' -> sc 0 0 0 41 (f c) (f c').
Proof.
  intros f z c c' Hf Hz Hb ((F & _ & _ & U) & (F' & _ & _ & U') & E). change (bp 0) with 1 in E. rewrite Rmult_1_r in E. destruct (Hf c F) as [G EG]. destruct (Hf c' F') as [G' EG'].
  assert (A : forall n (x : f32), is_finite x = true -> B2R x = IZR n -> IZR (Z.abs n) <= bp 41 -> sized 0 0 41 x).
  { intros n x Fx Ex Bx. assert (GX : on_grid 0 (IZR n)). { exists n. change (bp 0) with 1. ring. } split; [exact Fx|]. rewrite Ex. split; [exact GX|]. split; [now apply on_grid_low|]. rewrite <- abs_IZR. exact Bx. }
  split; [apply (A (z c)); auto|]. split; [apply (A (z c')); auto|]. change (bp 0) with 1. rewrite EG, EG', (Hz c' c E). ring.
Qed.
Lemma floor_bound : forall x, Rabs x <= bp 40 -> IZR (Z.abs (Zfloor x)) <= bp 41.
Proof.
  intros x H. change (bp 41) with (IZR (2 ^ 41)). apply IZR_le. change (bp 40) with (IZR (2 ^ 40)) in H. apply Rabs_le_inv in H.
  assert (A : (- 2 ^ 40 <= Zfloor x)%Z) by (apply Zfloor_lub; rewrite opp_IZR; apply H). assert (B : (Zfloor x <= 2 ^ 40)%Z) by (apply le_IZR; pose proof (Zfloor_lb x); lra). lia.
Qed.
Lemma floor_scaled : forall c c', sc 0 (-79) (-56) 40 c c' -> sc 0 0 0 41 (ffloor c) (ffloor c').
Proof. intros c c'. apply (int_scaled ffloor (fun x => Zfloor (B2R x))); [exact ffloor_fin|intros x y ->; reflexivity|intros x; apply floor_bound]. Qed.
Lemma ceil_scaled : forall c c', sc 0 (-79) (-56) 40 c c' -> sc 0 0 0 41 (fceil c) (fceil c').
Proof.
  intros c c'. apply (int_scaled fceil (fun x => Zceil (B2R x))); [exact fceil_fin|intros x y ->; reflexivity|]. intros x H. unfold Zceil. rewrite Z.abs_opp. apply floor_bound. now rewrite Rabs_Ropp.
Qed.
Lemma whole_scaled : forall k n n' r r', sc 0 0 0 41 n n' -> sc k (-43) (-20) 20 r r' -> corner k (fmul n r) (fmul n' r').
Proof.
  intros k n n' r r' N R. pose proof (sc_mul 0 0 0 41 k (-43) (-20) 20 n n' r r' ltac:(lia) ltac:(lia) ltac:(lia) N R) as M. cbn [Z.add] in M. revert M. apply sc_weaken; lia.
Qed.
Lemma disc_min_scaled : forall k v v' r r', coordinate k v v' -> sc k (-43) (-20) 20 r r' -> 0 < B2R r -> corner k (fdisc_min1 r v) (fdisc_min1 r' v').
Proof.
  intros k v v' r r' V R R0. pose proof (cells_of k v v' r r' V R R0) as C. unfold fdisc_min1. rewrite (relative_scaled _ _ _ _ _ C). destruct (relative_eq _ _); [now apply coordinate_corner|].
  apply whole_scaled; [now apply floor_scaled|exact R].
Qed.
Lemma disc_max_scaled : forall k e v v' r r', coordinate k v v' -> sc k (-43) (-20) 20 r r' -> 0 < B2R r -> corner k (fdisc_max1 r e v) (fdisc_max1 r' e v').
Proof.
  intros k e v v' r r' V R R0. pose proof (cells_of k v v' r r' V R R0) as C. unfold fdisc_max1. rewrite (relative_scaled _ _ _ _ _ C). destruct (relative_eq _ _).
  - destruct e; [|now apply coordinate_corner].
    pose proof (sc_add2 (-59) 20 k (-59) (-36) 20 (-43) (-20) 20 _ _ _ _ ltac:(lia) ltac:(lia) ltac:(lia) ltac:(lia) ltac:(lia) ltac:(lia) ltac:(lia) ltac:(lia) V R) as A. revert A. apply sc_weaken; lia.
  - apply whole_scaled; [now apply ceil_scaled|exact R].
Qed.
Definition box_rel (k : Z) (b b' : bounds) : Prop := Forall2 (corner k) (bmin b) (bmin b') /\ Forall2 (corner k) (bmax b) (bmax b').
Lemma map_rel : forall {A B} (P : A -> A -> Prop) (Q : B -> B -> Prop) f f' l l', (forall x x', P x x' -> Q (f x) (f' x')) -> Forall2 P l l' -> Forall2 Q (map f l) (map f' l').
Proof. intros A B P Q f f' l l' H K. induction K; cbn [map]; constructor; auto. Qed.
Lemma map2_rel : forall {A B C} (P : A -> A -> Prop) (P2 : B -> B -> Prop) (Q : C -> C -> Prop) f f' l l' m m', (forall x x' y y', P x x' -> P2 y y' -> Q (f x y) (f' x' y')) -> Forall2 P l l' -> Forall2 P2 m m' -> Forall2 Q (map2 f l m) (map2 f' l' m').
Proof. intros A B C P P2 Q f f' l l' m m' H K. revert m m'. induction K; intros m m' M; [constructor|]. destruct M; [constructor|]. cbn [map2]. constructor; auto. Qed.
Lemma forallb_rel : forall {A} (P : A -> A -> Prop) f l l' m m', (forall x x' y y', P x x' -> P y y' -> f (x', y') = f (x, y)) -> Forall2 P l l' -> Forall2 P m m' -> forallb f (combine l' m') = forallb f (combine l m).
Proof. intros A P f l l' m m' H K. revert m m'. induction K; intros m m' M; [reflexivity|]. destruct M; [reflexivity|]. cbn [combine forallb]. f_equal; auto. Qed.
Lemma discretized_scaled : forall k (b b' : bounds) r r' e, Forall2 (coordinate k) (bmin b) (bmin b') -> Forall2 (coordinate k) (bmax b) (bmax b') -> sc k (-43) (-20) 20 r r' -> 0 < B2R r ->
  alike (box_rel k) (bounds_discretized b r e) (bounds_discretized b' r' e).
Proof.
  intros k b b' r r' e MN MX R R0. unfold bounds_discretized, bounds_new.
  pose proof (map_rel (coordinate k) (corner k) (fdisc_min1 r) (fdisc_min1 r') _ _ (fun x x' H => disc_min_scaled k x x' r r' H R R0) MN) as A.
  pose proof (map_rel (coordinate k) (corner k) (fdisc_max1 r e) (fdisc_max1 r' e) _ _ (fun x x' H => disc_max_scaled k e x x' r r' H R R0) MX) as B.
  set (a := map _ (bmin b)) in *. set (a' := map _ (bmin b')) in *. set (c := map _ (bmax b)) in *. set (c' := map _ (bmax b')) in *.
  rewrite (forallb_rel (corner k) (fun ab => fleb (fst ab) (snd ab)) a a' c c'); [|intros x x' y y' X Y; exact (sc_leb _ _ _ _ _ _ _ _ _ _ _ X Y)|exact A|exact B].
  destruct (forallb _ _); cbn [oassert obind alike]; [|exact I]. split; assumption.
Qed.
Lemma zeros_rel : forall k d, Forall2 (corner k) (origin d) (origin d).
Proof. intros k d. unfold origin. induction d; cbn [repeat]; constructor; [apply sized_f0|assumption]. Qed.
Lemma empty_scaled : forall k b b', box_rel k b b' -> bounds_eqb b' (bounds_empty (length (bmin b'))) = bounds_eqb b (bounds_empty (length (bmin b))).
Proof.
  intros k b b' [MN MX]. unfold bounds_eqb, point_eqb, bounds_empty. cbn [bmin bmax]. change (T F32A) with f32. rewrite <- (Forall2_length _ _ _ MN), <- (Forall2_length _ _ _ MX).
  pose proof (zeros_rel k (length (bmin b))) as Z0.
  rewrite (forallb_rel (corner k) (fun xy => feqb (fst xy) (snd xy)) (bmin b) (bmin b') _ _ ltac:(intros x x' y y' X Y; exact (sc_eqb _ _ _ _ _ _ _ _ _ _ _ X Y)) MN Z0).
  rewrite (forallb_rel (corner k) (fun xy => feqb (fst xy) (snd xy)) (bmax b) (bmax b') _ _ ltac:(intros x x' y y' X Y; exact (sc_eqb _ _ _ _ _ _ _ _ _ _ _ X Y)) MX Z0). reflexivity.
Qed.
Lemma enclosing_scaled : forall k a a' b b', box_rel k a a' -> box_rel k b b' -> box_rel k (bounds_enclosing a b) (bounds_enclosing a' b').
Proof.
  intros k a a' b b' HA HB. unfold bounds_enclosing. rewrite (empty_scaled k a a' HA). destruct (bounds_eqb _ _); [exact HB|]. destruct HA as [A1 A2], HB as [B1 B2].
  split; cbn [bmin bmax]; apply (map2_rel (corner k) (corner k)); try assumption; intros x x' y y' X Y.
  - rewrite (sc_ltb _ _ _ _ _ _ _ _ _ _ _ X Y). now destruct (fltb x y).
  - rewrite (sc_ltb _ _ _ _ _ _ _ _ _ _ _ Y X). now destruct (fltb y x).
Qed.
Lemma from_bounds_scaled : forall k b b' r r', box_rel k b b' -> sc k (-43) (-20) 20 r r' -> 0 < B2R r -> cb_from_bounds b' r' = cb_from_bounds b r.
Proof.
  intros k b b' r r' H R R0. unfold cb_from_bounds. rewrite (empty_scaled k b b' H). change (T F32A) with f32. destruct H as [MN MX]. rewrite <- (Forall2_length _ _ _ MN). destruct (bounds_eqb _ _); [reflexivity|].
  f_equal; apply (corner_cells k); try assumption; apply zeros_rel.
Qed.

(** ** Growing a map *)
Lemma isz_ok : forall x y, isz x = Ret y -> in_isize y = true.
Proof. intros x y H. unfold isz in H. destruct (in_isize x) eqn:E; [now injection H as <-|discriminate H]. Qed.
Lemma disc_min_isize : forall t c y, in_isize c = true -> disc_min1 t c = Ret y -> in_isize y = true.
Proof.
  intros t c y Hc H. unfold disc_min1 in H. destruct (oassert _) as [[]| |]; try discriminate H. cbn [obind] in H. destruct (isz (Z.rem _ _)) as [q| |]; try discriminate H. cbn [obind] in H.
  destruct (isz (Z.abs q)) as [q2| |]; try discriminate H. cbn [obind] in H. destruct (q2 =? 0)%Z; [now injection H as <-|]. destruct (c <? 0)%Z; [|now apply isz_ok in H].
  destruct (isz (t - q2)) as [q3| |]; try discriminate H. now apply isz_ok in H.
Qed.
Lemma disc_max_isize : forall t c y, in_isize c = true -> disc_max1 t c = Ret y -> in_isize y = true.
Proof.
  intros t c y Hc H. unfold disc_max1 in H. destruct (oassert _) as [[]| |]; try discriminate H. cbn [obind] in H. destruct (isz (Z.rem _ _)) as [q| |]; try discriminate H. cbn [obind] in H.
  destruct (isz (Z.abs q)) as [q2| |]; try discriminate H. cbn [obind] in H. destruct (q2 =? 0)%Z; [now injection H as <-|]. destruct (c <? 0)%Z; [now apply isz_ok in H|].
  destruct (isz (t - q2)) as [q3| |]; try discriminate H. now apply isz_ok in H.
Qed.
Lemma omap_all : forall {A B} (P : A -> Prop) (Q : B -> Prop) f l l', (forall x y, P x -> f x = Ret y -> Q y) -> Forall P l -> omap f l = Ret l' -> Forall Q l'.
Proof.
  intros A B P Q f l l' H K. revert l'. induction K as [|x l Hx K IH]; intros l' E; cbn [omap] in E; [injection E as <-; constructor|].
  destruct (f x) as [y| |] eqn:Ey; try discriminate E. cbn [obind] in E. destruct (omap f l) as [ys| |] eqn:Eys; try discriminate E. cbn [obind] in E. injection E as <-. constructor; [now apply (H x)|now apply IH].
Qed.
Lemma to_isize_in : forall x, in_isize (f32_to_isize x) = true.
Proof. intros [s|[|]| |s m e H]; try reflexivity. unfold f32_to_isize, in_isize, isize_min, isize_max. apply andb_true_intro. split; apply Z.leb_le; lia. Qed.
Lemma cells_in : forall (p b : point) r, Forall (fun z => in_isize z = true) (cell_from_point F32A p b r).
Proof. intros p b r. unfold cell_from_point. revert b. induction p as [|x p IH]; intros [|y b]; cbn [map2]; constructor; [apply to_isize_in|apply IH]. Qed.
Lemma from_bounds_in : forall b r, Forall (fun z => in_isize z = true) (cmin (cb_from_bounds b r)) /\ Forall (fun z => in_isize z = true) (cmax (cb_from_bounds b r)).
Proof.
  intros b r. unfold cb_from_bounds. destruct (bounds_eqb _ _); cbn [cmin cmax cb_empty]; [|split; apply cells_in].
  assert (Z0 : forall d, Forall (fun z => in_isize z = true) (cell_origin d)) by (intro d; unfold cell_origin; induction d; cbn [repeat]; constructor; auto). split; apply Z0.
Qed.
Lemma discretized_in : forall cb t cb', Forall (fun z => in_isize z = true) (cmin cb) -> Forall (fun z => in_isize z = true) (cmax cb) -> cb_discretized cb t = Ret cb' ->
  Forall (fun z => in_isize z = true) (cmin cb') /\ Forall (fun z => in_isize z = true) (cmax cb').
Proof.
  intros cb t cb' A B H. unfold cb_discretized in H. destruct (omap _ (cmin cb)) as [mn| |] eqn:E1; try discriminate H. cbn [obind] in H. destruct (omap _ (cmax cb)) as [mx| |] eqn:E2; try discriminate H. cbn [obind] in H. injection H as <-. cbn [cmin cmax].
  split; [apply (omap_all _ _ _ _ _ (disc_min_isize _) A E1)|apply (omap_all _ _ _ _ _ (disc_max_isize _) B E2)].
Qed.
Lemma any_cell_scaled : forall k z r r', in_isize z = true -> sc k (-43) (-20) 20 r r' -> corner k (point_coord_from_cell_coord F32A z f0 r) (point_coord_from_cell_coord F32A z f0 r').
Proof.
  intros k z r r' Hz R. unfold point_coord_from_cell_coord. cbn [tadd tmul t_of_isize F32A].
  assert (Bz : IZR (Z.abs z) <= bp 63). { change (bp 63) with (IZR (2 ^ 63)). apply IZR_le. unfold in_isize, isize_min, isize_max in Hz. apply andb_true_iff in Hz. destruct Hz as [H1 H2]. apply Z.leb_le in H1, H2. lia. }
  destruct (of_Z_sized 63 z ltac:(lia) Bz) as [S _].
  pose proof (sc_mul 0 0 0 63 k (-43) (-20) 20 _ _ r r' ltac:(lia) ltac:(lia) ltac:(lia) (sc_self _ _ _ _ S) R) as M. cbn [Z.add] in M.
  pose proof (sc_add2 (-59) 83 k (-43) (-20) 83 0 0 83 _ _ _ _ ltac:(lia) ltac:(lia) ltac:(lia) ltac:(lia) ltac:(lia) ltac:(lia) ltac:(lia) ltac:(lia) M (sized_f0 _ _ _ _)) as A. exact A.
Qed.
Lemma points_of_cells : forall k c d r r', Forall (fun z => in_isize z = true) c -> sc k (-43) (-20) 20 r r' ->
  Forall2 (corner k) (point_from_cell F32A c (origin d) r) (point_from_cell F32A c (origin d) r').
Proof.
  intros k c d r r' H R. revert d. unfold point_from_cell, origin. induction H as [|z c Hz H IH]; intros [|d]; cbn [repeat map2]; constructor; [now apply any_cell_scaled|apply IH].
Qed.
Lemma from_cells_scaled : forall k cb r r', Forall (fun z => in_isize z = true) (cmin cb) -> Forall (fun z => in_isize z = true) (cmax cb) -> sc k (-43) (-20) 20 r r' ->
  box_rel k (bounds_from_cell_bounds cb r) (bounds_from_cell_bounds cb r').
Proof. intros k cb r r' A B R. split; cbn [bmin bmax bounds_from_cell_bounds]; now apply points_of_cells. Qed.
Lemma storage_scaled : forall {A} k b b' r r' (v : A), box_rel k b b' -> sc k (-43) (-20) 20 r r' -> 0 < B2R r -> ndarray_with_bounds r' b' v = ndarray_with_bounds r b v.
Proof. intros A k b b' r r' v [MN MX] R R0. unfold ndarray_with_bounds. now rewrite (corner_cells k (bmax b) (bmax b') (bmin b) (bmin b') r r' MX MN R R0). Qed.

(** The same map, with corners that may be larger than usual. *)
Definition map_rel_ {A} (k : Z) (g g' : grid_map A) : Prop :=
  gm_data g' = gm_data g /\ rescaled_size k (gm_resolution g) (gm_resolution g') /\ box_rel k (gm_bounds g) (gm_bounds g') /\
  gm_tile_size g' = gm_tile_size g /\ gm_track_changes g' = gm_track_changes g /\ gm_changed_cells g' = gm_changed_cells g.
Lemma rescaled_corners : forall k p p', Forall2 (rescaled k) p p' -> Forall2 (corner k) p p'.
Proof. intros k p p' H. now apply corners, rescaled_all. Qed.
Lemma rescaled_map_rel : forall {A} k (g g' : grid_map A), rescaled_map k g g' -> map_rel_ k g g'.
Proof. intros A k g g' (D & R & [B1 B2] & T). split; [exact D|]. split; [exact R|]. split; [split; now apply rescaled_corners|exact T]. Qed.
Lemma alike_bind : forall {A B C D} (P : A -> B -> Prop) (Q : C -> D -> Prop) x y f g, alike P x y -> (forall a b, P a b -> alike Q (f a) (g b)) -> alike Q (obind x f) (obind y g).
Proof. intros A B C D P Q [a| |] [b| |] f g H K; cbn [alike obind] in *; try contradiction; try exact I. now apply K. Qed.
Lemma expand_scaled : forall {A} k (g g' : grid_map A) b b' v, map_rel_ k g g' -> Forall2 (coordinate k) (bmin b) (bmin b') -> Forall2 (coordinate k) (bmax b) (bmax b') ->
  alike (map_rel_ k) (gm_expand_bounds g b v) (gm_expand_bounds g' b' v).
Proof.
  intros A k g g' b b' v M MN MX. pose proof M as (D & RS & BX & TS & TR & CH). destruct (rescaled_size_sc _ _ _ RS) as (R & R0 & _). unfold gm_expand_bounds.
  apply (alike_bind (box_rel k)); [now apply discretized_scaled|]. intros db db' HD. pose proof (enclosing_scaled k _ _ _ _ BX HD) as EN.
  rewrite (from_bounds_scaled k _ _ _ _ EN R R0), (from_bounds_scaled k _ _ _ _ BX R R0), TS.
  destruct (from_bounds_in (bounds_enclosing (gm_bounds g) db) (gm_resolution g)) as [I1 I2].
  destruct (cb_discretized (cb_from_bounds (bounds_enclosing (gm_bounds g) db) (gm_resolution g)) (gm_tile_size g)) as [ncb| |] eqn:E; cbn [obind alike]; try exact I.
  destruct (discretized_in _ _ _ I1 I2 E) as [J1 J2]. destruct (cb_eqb _ _); [exact M|].
  pose proof (from_cells_scaled k ncb _ _ J1 J2 R) as NB. rewrite (storage_scaled k _ _ _ _ v NB R R0). destruct (ndarray_with_bounds _ _ _) as [td| |]; cbn [obind alike]; try exact I.
  rewrite (empty_scaled k _ _ BX), D, <- (Forall2_length _ _ _ (proj1 BX)). change (T F32A) with f32.
  destruct (if bounds_eqb (gm_bounds g) (bounds_empty (length (bmin (gm_bounds g)))) then _ else _) as [td'| |]; cbn [obind alike]; try exact I.
  split; [reflexivity|]. cbn [gm_resolution gm_bounds gm_tile_size gm_track_changes gm_changed_cells]. auto.
Qed.

(** ** Scans *)
Lemma bounds_scaled : forall k c c', rescaled_cloud k c c' ->
  Forall2 (coordinate k) (bmin (pc_bounds c)) (bmin (pc_bounds c')) /\ Forall2 (coordinate k) (bmax (pc_bounds c)) (bmax (pc_bounds c')).
Proof.
  intros k c c' [NR P]. unfold pc_bounds. rewrite NR. set (b := bounds_empty (nrows c)) at 1 3. set (b' := bounds_empty (nrows c)).
  assert (B : Forall2 (coordinate k) (bmin b) (bmin b') /\ Forall2 (coordinate k) (bmax b) (bmax b')).
  { unfold b, b', bounds_empty. cbn [bmin bmax]. unfold origin. assert (Q : forall d, Forall2 (coordinate k) (repeat f0 d) (repeat f0 d)) by (induction d; cbn [repeat]; constructor; [apply sized_f0|assumption]). split; apply Q. }
  clearbody b b'. revert b b' B. induction P as [|p p' ps ps' Hp P IH]; intros b b' [B1 B2]; [split; assumption|]. cbn [fold_left]. apply IH. apply rescaled_all in Hp. unfold bounds_add_point. cbn [bmin bmax].
  split; apply (map2_rel (coordinate k) (coordinate k)); try assumption; intros x x' y y' X Y.
  - rewrite (sc_ltb _ _ _ _ _ _ _ _ _ _ _ X Y). now destruct (fltb x y).
  - rewrite (sc_ltb _ _ _ _ _ _ _ _ _ _ _ Y X). now destruct (fltb y x).
Qed.
Lemma usual_rescaled : forall k p p', Forall (usual_in k) p -> Forall2 (corner k) p p' -> Forall2 (rescaled k) p p'.
Proof.
  intros k p p' U H. induction H as [|x x' p p' Hx H IH]; [constructor|]. inversion U as [|? ? [Ux Uy] U']; subst. constructor; [|now apply IH]. destruct Hx as (_ & (F' & _) & E). split; [exact Ux|]. split; [|exact E]. split; [exact F'|]. unfold real in *. now rewrite E.
Qed.
Lemma get_scaled : forall {A} k (g g' : grid_map A) c, rescaled_map k g g' -> gm_get g' c = gm_get g c.
Proof. intros A k g g' c (D & _). unfold gm_get. now rewrite D. Qed.
Lemma set_scaled : forall {A} k (g g' : grid_map A) c v, rescaled_map k g g' -> alike (rescaled_map k) (gm_set g c v) (gm_set g' c v).
Proof.
  intros A k g g' c v (D & R & B & T & TR & CH). unfold gm_set. rewrite D. destruct (nd_set _ _ _) as [x| |]; cbn [obind alike]; try exact I. split; [reflexivity|]. cbn [gm_resolution gm_bounds gm_tile_size gm_track_changes gm_changed_cells]. auto.
Qed.
Lemma loop_rel : forall k f f' track cells g g' l, (forall a a' c, rescaled_map k a a' -> alike (rescaled_map k) (f a c) (f' a' c)) -> rescaled_map k g g' ->
  alike (fun x y => rescaled_map k (fst x) (fst y) /\ snd y = snd x) (update_loop f track cells (g, l)) (update_loop f' track cells (g', l)).
Proof.
  intros k f f' track cells g g' l H. unfold update_loop. revert g g' l. induction cells as [|c cells IH]; intros g g' l M; cbn [ofold]; [split; [exact M|reflexivity]|].
  apply (alike_bind (fun x y => rescaled_map k (fst x) (fst y) /\ snd y = snd x)).
  - apply (alike_bind (rescaled_map k)); [now apply H|]. intros a b Hab. cbn [alike]. split; [exact Hab|reflexivity].
  - intros [a la] [b lb] [Hab E]. cbn [fst snd] in *. subst lb. now apply IH.
Qed.
Lemma hit_rel : forall k m m' g g' c, rescaled_lidar k m m' -> rescaled_map k g g' -> alike (rescaled_map k) (integrate_hit m g c) (integrate_hit m' g' c).
Proof.
  intros k m m' g g' c (H1 & H2 & H3 & H4 & H5 & H6) M. unfold integrate_hit. rewrite (get_scaled k g g' c M). destruct (gm_get g c) as [v| |]; cbn [obind alike]; try exact I. unfold hit_value. rewrite H1, H4. now apply set_scaled.
Qed.
Lemma miss_rel : forall k m m' g g' c, rescaled_lidar k m m' -> rescaled_map k g g' -> alike (rescaled_map k) (integrate_miss m g c) (integrate_miss m' g' c).
Proof.
  intros k m m' g g' c (H1 & H2 & H3 & H4 & H5 & H6) M. unfold integrate_miss. rewrite (get_scaled k g g' c M). destruct (gm_get g c) as [v| |]; cbn [obind alike]; try exact I. unfold miss_value. rewrite H2, H3. now apply set_scaled.
Qed.
Lemma rel_back : forall {A} k (g g' : grid_map A), box_usual_in k (gm_bounds g) -> map_rel_ k g g' -> rescaled_map k g g'.
Proof. intros A k g g' [U1 U2] (D & R & [B1 B2] & T). split; [exact D|]. split; [exact R|]. split; [split; now apply usual_rescaled|exact T]. Qed.

Lemma omap_len : forall {A B} (f : A -> outcome B) l l', omap f l = Ret l' -> length l' = length l.
Proof.
  intros A B f l. induction l as [|x l IH]; intros l' E; cbn [omap] in E; [now injection E as <-|]. destruct (f x) as [y| |]; try discriminate E. cbn [obind] in E. destruct (omap f l) as [ys| |] eqn:Q; try discriminate E. cbn [obind] in E. injection E as <-. cbn [length]. f_equal. now apply IH.
Qed.
Lemma points_dim : forall d (ps : list point) b, (forall p, In p ps -> length p = d) -> length (bmin b) = d -> length (bmax b) = d ->
  length (bmin (fold_left bounds_add_point ps b)) = d /\ length (bmax (fold_left bounds_add_point ps b)) = d.
Proof.
  intros d ps. induction ps as [|p ps IH]; intros b H L1 L2; [now split|]. cbn [fold_left]. apply IH; [intros q Hq; apply H; now right| |]; cbn [bmin bmax bounds_add_point]; (apply map2_len; [apply H; now left|assumption]).
Qed.
Lemma cloud_dim : forall d c, nrows c = d -> (forall p, In p (pc_points c) -> length p = d) -> length (bmin (pc_bounds c)) = d /\ length (bmax (pc_bounds c)) = d.
Proof. intros d c E H. unfold pc_bounds. apply points_dim; [exact H| |]; cbn [bmin bmax bounds_empty]; unfold origin; now rewrite repeat_length. Qed.
Lemma expand_dim : forall {A} d (g g1 : grid_map A) b v, length (bmin (gm_bounds g)) = d -> length (bmax (gm_bounds g)) = d -> length (bmin b) = d -> length (bmax b) = d ->
  gm_expand_bounds g b v = Ret g1 -> length (bmin (gm_bounds g1)) = d /\ length (bmax (gm_bounds g1)) = d.
Proof.
  intros A d g g1 b v L1 L2 L3 L4 H. unfold gm_expand_bounds in H. destruct (bounds_discretized _ _ _) as [db| |] eqn:E; try discriminate H. cbn [obind] in H.
  assert (DB : length (bmin db) = d /\ length (bmax db) = d).
  { unfold bounds_discretized, bounds_new in E. destruct (oassert _) as [[]| |]; try discriminate E. cbn [obind] in E. injection E as <-. cbn [bmin bmax]. rewrite !map_length. now split. }
  destruct DB as [D1 D2]. set (en := bounds_enclosing (gm_bounds g) db) in *.
  assert (EN : length (bmin en) = d /\ length (bmax en) = d).
  { unfold en, bounds_enclosing. destruct (bounds_eqb _ _); [now split|]. cbn [bmin bmax]. split; now apply map2_len. }
  destruct EN as [N1 N2]. destruct (cb_discretized _ _) as [ncb| |] eqn:Q; try discriminate H. cbn [obind] in H.
  assert (O : forall k, length (origin k) = k) by (intro k; apply repeat_length).
  assert (FB : length (cmin (cb_from_bounds en (gm_resolution g))) = d /\ length (cmax (cb_from_bounds en (gm_resolution g))) = d).
  { clearbody en. unfold cb_from_bounds. destruct (bounds_eqb en _); cbn [cmin cmax cb_empty]; [split; exact (eq_trans (repeat_length _ _) N1)|]. unfold cell_from_point. rewrite N1. split; apply map2_len; try assumption; apply O. }
  assert (NC : length (cmin ncb) = d /\ length (cmax ncb) = d).
  { unfold cb_discretized in Q. destruct (omap _ (cmin _)) as [mn| |] eqn:Q1; try discriminate Q. cbn [obind] in Q. destruct (omap _ (cmax _)) as [mx| |] eqn:Q2; try discriminate Q. cbn [obind] in Q. injection Q as <-. cbn [cmin cmax].
    rewrite (omap_len _ _ _ Q1), (omap_len _ _ _ Q2). exact FB. }
  destruct (cb_eqb _ _); [injection H as <-; now split|]. destruct (ndarray_with_bounds _ _ _) as [td| |]; try discriminate H. cbn [obind] in H. match type of H with obind ?x _ = _ => destruct x as [td'| |] end; try discriminate H. cbn [obind] in H. injection H as <-.
  cbn [gm_bounds bmin bmax bounds_from_cell_bounds]. destruct NC as [C1 C2]. rewrite C1. unfold point_from_cell. split; apply map2_len; try assumption; apply O.
Qed.
Lemma integrate_rescaled : forall k fuel of oo d m m' g g' (o o' : point) cloud cloud', (d = 2 \/ d = 3)%nat ->
  length (bmin (gm_bounds g)) = d -> length (bmax (gm_bounds g)) = d -> length o = d -> nrows cloud = d -> (forall p, In p (pc_points cloud) -> length p = d) ->
  rescaled_map k g g' -> rescaled_lidar k m m' -> Forall2 (rescaled k) o o' -> rescaled_cloud k cloud cloud' ->
  (forall g1, gm_expand_bounds g (pc_bounds cloud) f0 = Ret g1 -> box_usual_in k (gm_bounds g1)) -> (Z.of_nat fuel <= 2 ^ 38)%Z ->
  alike (rescaled_map k) (integrate_point_cloud fuel of oo m g o cloud) (integrate_point_cloud fuel of oo m' g' o' cloud').
Proof.
  intros k fuel of oo d m m' g g' o o' cloud cloud' Hd Lg Lx Lo LR LP M ML O CL U Hf. unfold integrate_point_cloud.
  destruct (bounds_scaled k cloud cloud' CL) as [B1 B2]. pose proof (expand_scaled k g g' _ _ f0 (rescaled_map_rel k g g' M) B1 B2) as E. unfold default_cell_value.
  destruct (gm_expand_bounds g (pc_bounds cloud) f0) as [g1| |] eqn:Q, (gm_expand_bounds g' (pc_bounds cloud') f0) as [g1'| |]; cbn [alike obind] in *; try contradiction; try exact I.
  pose proof (cloud_dim d cloud LR LP) as PB.
  destruct (expand_dim d g g1 _ f0 Lg Lx (proj1 PB) (proj2 PB) Q) as [D1 D2].
  pose proof (rel_back k g1 g1' (U g1 eq_refl) E) as M1. clear E. pose proof M1 as (_ & R1 & [N1 _] & _ & TR & _).
  rewrite (scan_rescaled k fuel d o o' cloud cloud' (gm_bounds g1) (gm_bounds g1') (gm_resolution g1) (gm_resolution g1') (max_range m) (max_range m')); try assumption; [|apply CL|apply ML].
  destruct (cast_rays _ _ _ _ _ _) as [fo| |]; cbn [obind alike]; try exact I. rewrite TR.
  apply (alike_bind (fun x y => rescaled_map k (fst x) (fst y) /\ snd y = snd x)); [apply loop_rel; [intros; now apply miss_rel|exact M1]|].
  intros [a la] [b lb] [Hab EL]. cbn [fst snd] in *. subst lb. apply (alike_bind (fun x y => rescaled_map k (fst x) (fst y) /\ snd y = snd x)); [apply loop_rel; [intros; now apply hit_rel|exact Hab]|].
  intros [x lx] [y ly] [Hxy EL]. cbn [fst snd] in *. subst ly. cbn [alike]. destruct (gm_track_changes g1); [|exact Hxy].
  destruct Hxy as (D & R & BB & TS & TC & CH). split; [exact D|]. cbn [gm_add_changed_cells gm_resolution gm_bounds gm_tile_size gm_track_changes gm_changed_cells]. rewrite CH. auto 8.
Qed.
Lemma new_rescaled : forall k d r r' t, rescaled_size k r r' -> alike (rescaled_map k) (gm_new r (bounds_empty d) t f0) (gm_new r' (bounds_empty d) t f0).
Proof.
  intros k d r r' t RS. destruct (rescaled_size_sc _ _ _ RS) as (R & R0 & _).
  assert (Z0 : Forall2 (rescaled k) (origin d) (origin d)).
  { assert (U : usual f0) by (split; [reflexivity|now left]). unfold origin. induction d; cbn [repeat]; constructor; try assumption. split; [exact U|]. split; [exact U|]. change (real f0) with 0. ring. }
  unfold gm_new. rewrite (storage_scaled k (bounds_empty d) (bounds_empty d) r r' f0); try assumption; [|split; now apply rescaled_corners].
  destruct (ndarray_with_bounds _ _ _) as [x| |]; cbn [obind alike]; try exact I. split; [reflexivity|]. cbn. repeat split; try assumption; apply RS.
Qed.
Lemma set_bounds : forall {A} (g g1 : grid_map A) c v, gm_set g c v = Ret g1 -> gm_bounds g1 = gm_bounds g.
Proof. intros A g g1 c v H. unfold gm_set in H. destruct (nd_set _ _ _); try discriminate H. cbn [obind] in H. now injection H as <-. Qed.
Lemma hit_bounds : forall m g c g1, integrate_hit m g c = Ret g1 -> gm_bounds g1 = gm_bounds g.
Proof. intros m g c g1 H. unfold integrate_hit in H. destruct (gm_get g c); try discriminate H. cbn [obind] in H. now apply set_bounds in H. Qed.
Lemma miss_bounds : forall m g c g1, integrate_miss m g c = Ret g1 -> gm_bounds g1 = gm_bounds g.
Proof. intros m g c g1 H. unfold integrate_miss in H. destruct (gm_get g c); try discriminate H. cbn [obind] in H. now apply set_bounds in H. Qed.
Lemma loop_bounds : forall f track cells g l x, (forall g c g1, f g c = Ret g1 -> gm_bounds g1 = gm_bounds g) -> update_loop f track cells (g, l) = Ret x -> gm_bounds (fst x) = gm_bounds g.
Proof.
  intros f track cells g l x F. unfold update_loop. revert g l. induction cells as [|c cells IH]; intros g l H; cbn [ofold] in H; [now injection H as <-|]. cbn [fst] in H. destruct (f g c) as [g1| |] eqn:E; try discriminate H. cbn [obind] in H. rewrite (IH _ _ H). now apply (F g c).
Qed.
Lemma integrate_bounds : forall fuel of oo m g o cloud g2, integrate_point_cloud fuel of oo m g o cloud = Ret g2 -> exists g1, gm_expand_bounds g (pc_bounds cloud) f0 = Ret g1 /\ gm_bounds g2 = gm_bounds g1.
Proof.
  intros fuel of oo m g o cloud g2 H. unfold integrate_point_cloud, default_cell_value in H. destruct (gm_expand_bounds g (pc_bounds cloud) f0) as [g1| |]; try discriminate H. cbn [obind] in H. exists g1. split; [reflexivity|].
  destruct (cast_rays _ _ _ _ _ _) as [fo| |]; try discriminate H. cbn [obind] in H. destruct (update_loop (integrate_miss m) _ _ _) as [[a la]| |] eqn:E1; try discriminate H. cbn [obind] in H. destruct (update_loop (integrate_hit m) _ _ _) as [[b lb]| |] eqn:E2; try discriminate H. cbn [obind fst snd] in H.
  pose proof (loop_bounds _ _ _ _ _ _ (miss_bounds m) E1) as B1. pose proof (loop_bounds _ _ _ _ _ _ (hit_bounds m) E2) as B2. cbn [fst] in B1, B2. destruct (gm_track_changes g1); injection H as <-; cbn; congruence.
Qed.
Lemma history_rescaled : forall k fuel of oo d m m', (d = 2 \/ d = 3)%nat -> rescaled_lidar k m m' -> (Z.of_nat fuel <= 2 ^ 38)%Z -> forall scans scans' g g',
  length (bmin (gm_bounds g)) = d -> length (bmax (gm_bounds g)) = d -> rescaled_map k g g' -> Forall (scan_in d) scans -> Forall2 (rescaled_scan k) scans scans' ->
  (forall before o c after g0 g1, scans = before ++ (o, c) :: after -> built fuel of oo m g before = Ret g0 -> gm_expand_bounds g0 (pc_bounds c) f0 = Ret g1 -> box_usual_in k (gm_bounds g1)) ->
  alike (rescaled_map k) (built fuel of oo m g scans) (built fuel of oo m' g' scans').
Proof.
  intros k fuel of oo d m m' Hd ML Hf scans. induction scans as [|[o c] scans IH]; intros scans' g g' L1 L2 M D S U.
  { inversion S as [Q|]. exact M. }
  destruct scans' as [|[o' c'] rest']; [inversion S|]. assert (SS : rescaled_scan k (o, c) (o', c') /\ Forall2 (rescaled_scan k) scans rest') by (inversion S; now split). clear S. destruct SS as [[HO HC] SR]. apply Forall_cons_iff in D. destruct D as [[LO [LR LP]] D]. cbn [fst snd] in *. cbn [built].
  pose proof (integrate_rescaled k fuel of oo d m m' g g' o o' c c' Hd L1 L2 LO LR LP M ML HO HC (fun g1 E => U [] o c scans g g1 eq_refl eq_refl E) Hf) as A.
  destruct (integrate_point_cloud fuel of oo m g o c) as [g2| |] eqn:E, (integrate_point_cloud fuel of oo m' g' o' c') as [g2'| |]; cbn [alike obind] in *; try contradiction; try exact I.
  destruct (integrate_bounds _ _ _ _ _ _ _ _ E) as (g1 & X & B). destruct (cloud_dim d c LR LP) as [P1 P2]. destruct (expand_dim d g g1 _ _ L1 L2 P1 P2 X) as [Q1 Q2]. rewrite <- B in Q1, Q2.
  apply IH; try assumption. intros before o2 c2 after g0 h1 -> Hb. apply (U ((o, c) :: before) o2 c2 after g0 h1); [reflexivity|]. cbn [built]. rewrite E. exact Hb.
Qed.
Lemma occupied_rescaled : forall k m m' g g' c, rescaled_lidar k m m' -> rescaled_map k g g' -> occupied m' g' c = occupied m g c.
Proof. intros k m m' g g' c ML M. unfold occupied. rewrite (get_scaled k g g' c M). destruct ML as (_ & _ & _ & _ & -> & _). reflexivity. Qed.
