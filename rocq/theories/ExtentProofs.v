(** How large a map gets. *)
From Coq Require Import ZArith List Bool Reals Lra Lia Psatz Permutation.
From Flocq Require Import Core BinarySingleNaN.
From Verif Require Import Base F32 FloatFacts RoundError Arith Geom NdArray GridMap RayCaster NoiseModel Spec SpecMap SpecNoise ConverterProofs GeomProofs BoundsProofs NdProofs GridProofs ExpandProofs MapProofs NoiseProofs ScanProofs AlignProofs Viz SpecViz VizProofs MainProofs ProgramProofs LiveProofs CornerProofs SpecExtent.
Open Scope Z_scope.

(** ** A requested box always has cells *)
Lemma disc_step : forall r v, res_ok r -> within_cells (2 ^ 18) r v -> wc r (fdisc_max1 r true v) = wc r (fdisc_min1 r v) + 1.
Proof.
  intros r v HR W. pose proof (res_ok_pos r HR) as P. destruct (quotient r HR v W) as (Fc & Bc & Ec & Dc).
  unfold fdisc_min1, fdisc_max1. cbv zeta. destruct (relative_eq _ _) eqn:RE.
  - destruct (releq_int r HR v W RE) as [N C]. set (n := ZnearestA (B2R (fdiv v r))) in *. destruct W as [Fv Wv].
    pose proof HR as [Fr Hr]. unfold real in *. change (IZR (2 ^ 18)) with 262144%R in Wv.
    assert (A : (Rabs (B2R v + B2R r) <= 262145 * B2R r)%R).
    { eapply Rle_trans; [apply Rabs_triang|]. rewrite (Rabs_pos_eq (B2R r)) by lra. lra. }
    destruct (fadd_fin v r Fv Fr) as [Fs Es].
    { apply rnd_abs_lt_128. eapply Rle_trans; [exact A|].
      change 127%Z with (100 + 27)%Z. rewrite bpow_plus. change (bp 27) with 134217728%R. pose proof (bpow_gt_0 radix2 100). nra. }
    assert (D : (Rabs (B2R (fadd v r) - IZR (n + 1) * B2R r) <= / 8 * B2R r)%R).
    { rewrite Es, plus_IZR. pose proof (rnd_add_rel v r) as Q.
      replace (rnd (B2R v + B2R r) - (IZR n + 1) * B2R r)%R with ((rnd (B2R v + B2R r) - (B2R v + B2R r)) + (B2R v - IZR n * B2R r))%R by ring.
      eapply Rle_trans; [apply Rabs_triang|]. unfold u32 in *. lra. }
    rewrite (wc_close r HR v n Fv) by (try lra; lia). rewrite (wc_close r HR (fadd v r) (n + 1) Fs) by (try exact D; lia). reflexivity.
  - destruct (quotient_between v r (proj1 W) (proj1 HR) P RE) as (_ & _ & CF).
    destruct (ffloor_fin _ Fc) as [Ff Ef]. destruct (fceil_fin _ Fc) as [Fe Ee]. rewrite CF in Ee.
    assert (N : (Z.abs (Zfloor (B2R (fdiv v r))) <= 262146)%Z).
    { apply (int_abs _ (B2R (fdiv v r)) 262145); [|assumption].
      pose proof (Zfloor_lb (B2R (fdiv v r))). pose proof (Zfloor_ub (B2R (fdiv v r))). rewrite Rabs_pos_eq; lra. }
    destruct (mul_int r HR _ _ Ff Ef ltac:(lia)) as [F1 E1]. destruct (mul_int r HR _ _ Fe Ee ltac:(lia)) as [F2 E2].
    rewrite (wc_close r HR _ (Zfloor (B2R (fdiv v r))) F1) by (try lra; lia).
    rewrite (wc_close r HR _ (Zfloor (B2R (fdiv v r)) + 1) F2) by (try lra; lia). reflexivity.
Qed.

Lemma disc_upper : forall r x y, res_ok r -> within_cells (2 ^ 18) r x -> within_cells (2 ^ 18) r y -> (real x <= real y)%R ->
  wc r (fdisc_max1 r true x) <= wc r (fdisc_max1 r true y).
Proof. intros r x y HR Wx Wy H. rewrite !disc_step by assumption. pose proof (disc_lower r x y HR Wx Wy H). lia. Qed.

(** The cells of a request. *)
Definition asked (r : f32) (b : bounds) : cell_bounds :=
  mkCB (map (wc r) (map (fdisc_min1 r) (bmin b))) (map (wc r) (map (fdisc_max1 r true) (bmax b))).
Lemma asked_is : forall d r b db, res_ok r -> request_ok d r b -> bounds_discretized b r true = Ret db -> cb_from_bounds db r = asked r b.
Proof.
  intros d r b db HR ((L1 & L2 & _) & _ & _) D. unfold bounds_discretized, bounds_new in D.
  destruct (oassert _); cbn [obind] in D; try discriminate D. injection D as <-.
  apply (from_bounds_map d); [exact HR|cbn [bmin]; now rewrite map_length|cbn [bmax]; now rewrite map_length].
Qed.
Lemma asked_length : forall d r b, request_ok d r b -> length (cmin (asked r b)) = d /\ length (cmax (asked r b)) = d.
Proof. intros d r b ((L1 & L2 & _) & _). cbn [asked cmin cmax]. now rewrite !map_length. Qed.
Lemma asked_cells : forall d r b, res_ok r -> request_ok d r b -> box_cells r b (asked r b).
Proof.
  intros d r b HR (_ & W1 & W2). split; cbn [asked cmin cmax].
  - clear -W1 HR. induction W1; cbn [map]; constructor; auto. now apply lower_number.
  - clear -W2 HR. induction W2; cbn [map]; constructor; auto. now apply upper_number.
Qed.
Lemma asked_some : forall d r b, res_ok r -> request_ok d r b -> Forall2 Z.lt (cmin (asked r b)) (cmax (asked r b)).
Proof.
  intros d r b HR ((_ & _ & O) & W1 & W2). cbn [asked cmin cmax]. unfold point in *. revert W1 W2.
  induction O as [|x y l l' Lxy O IH]; intros W1 W2; cbn [map]; constructor.
  - inversion W1 as [|? ? Wx W1']. inversion W2 as [|? ? Wy W2']. rewrite disc_step by assumption. apply Zle_lt_succ.
    apply disc_lower; try assumption. destruct Wx as [Fx _], Wy as [Fy _]. now apply fle_reals.
  - apply IH; [now inversion W1|now inversion W2].
Qed.

(** ** Rounding out to tiles may be done once, at the end *)
Lemma below_min : forall t a b x y, 1 <= t -> tile_below t a x -> tile_below t (Z.min x b) y -> tile_below t (Z.min a b) y.
Proof.
  intros t a b x y Ht [[k ->] X2] [[j ->] Y2]. split; [now exists j|]. assert (j <= k) by (apply (Zmult_le_reg_r j k t); lia). assert (k * t <= b \/ b < k * t) as [H1|H1] by lia.
  - rewrite Z.min_l in Y2 by lia. assert (k < j + 1) by (apply (Zmult_lt_reg_r k (j + 1) t); lia). assert (k = j) by lia. subst j. lia.
  - lia.
Qed.
Lemma above_max : forall t a b x y, 1 <= t -> tile_above t a x -> tile_above t (Z.max x b) y -> tile_above t (Z.max a b) y.
Proof.
  intros t a b x y Ht [[k ->] X2] [[j ->] Y2]. split; [now exists j|]. assert (k <= j) by (apply (Zmult_le_reg_r k j t); lia). assert (b <= k * t \/ k * t < b) as [H1|H1] by lia.
  - rewrite Z.max_l in Y2 by lia. assert (j - 1 < k) by (apply (Zmult_lt_reg_r (j - 1) k t); lia). assert (k = j) by lia. subst j. lia.
  - lia.
Qed.
Lemma below_one : forall t a x y, tile_below t a x -> tile_below t a y -> 1 <= t -> x = y.
Proof. intros t a x y [[k ->] X2] [[j ->] Y2] Ht. assert (k < j + 1) by (apply (Zmult_lt_reg_r k (j + 1) t); lia). assert (j < k + 1) by (apply (Zmult_lt_reg_r j (k + 1) t); lia). f_equal. lia. Qed.
Lemma above_one : forall t a x y, tile_above t a x -> tile_above t a y -> 1 <= t -> x = y.
Proof. intros t a x y [[k ->] X2] [[j ->] Y2] Ht. assert (k < j + 1) by (apply (Zmult_lt_reg_r k (j + 1) t); lia). assert (j < k + 1) by (apply (Zmult_lt_reg_r j (k + 1) t); lia). f_equal. lia. Qed.
(** [x] is the least, or the greatest, of [l]. *)
Definition least (l : list Z) (x : Z) : Prop := In x l /\ Forall (fun y => x <= y) l.
Definition greatest (l : list Z) (x : Z) : Prop := In x l /\ Forall (fun y => y <= x) l.
Lemma least_snoc : forall l x y, least l x -> least (l ++ [y]) (Z.min x y).
Proof.
  intros l x y [I F]. split.
  - apply in_or_app. destruct (Z.min_spec x y) as [[_ ->]|[_ ->]]; [now left|right; now left].
  - apply Forall_app. split; [|constructor; [lia|constructor]]. eapply Forall_impl; [|exact F]. cbv beta. lia.
Qed.
Lemma greatest_snoc : forall l x y, greatest l x -> greatest (l ++ [y]) (Z.max x y).
Proof.
  intros l x y [I F]. split.
  - apply in_or_app. destruct (Z.max_spec x y) as [[_ ->]|[_ ->]]; [right; now left|now left].
  - apply Forall_app. split; [|constructor; [lia|constructor]]. eapply Forall_impl; [|exact F]. cbv beta. lia.
Qed.
Lemma least_one : forall l x y, least l x -> least l y -> x = y.
Proof. intros l x y [I F] [I' F']. rewrite Forall_forall in F, F'. pose proof (F y I'). pose proof (F' x I). lia. Qed.
Lemma greatest_one : forall l x y, greatest l x -> greatest l y -> x = y.
Proof. intros l x y [I F] [I' F']. rewrite Forall_forall in F, F'. pose proof (F y I'). pose proof (F' x I). lia. Qed.

(** On axis [i] the box of cells [cb] starts at the tile of the least lower cell of [ks] and ends
    with the tile of the greatest upper one. *)
Definition tiles_of (t : Z) (ks : list cell_bounds) (i : nat) (cb : cell_bounds) : Prop :=
  exists lo hi, least (map (fun k => nth i (cmin k) 0) ks) lo /\ greatest (map (fun k => nth i (cmax k) 0) ks) hi /\
    tile_below t lo (nth i (cmin cb) 0) /\ tile_above t hi (nth i (cmax cb) 0).

(** ** The cells of a map *)
Record sized {A} (d : nat) (r : f32) (t : Z) (bs : list bounds) (g : grid_map A) (cb : cell_bounds) : Prop := {
  z_wf : wf d r t g cb;
  z_requests : Forall (request_ok d r) bs;
  z_none : bs = [] -> cb = cb_empty d;
  z_some : bs <> [] -> cb <> cb_empty d /\ forall i, (i < d)%nat -> tiles_of t (map (asked r) bs) i cb
}.

Lemma map2_nth_zero : forall f i (l l' : list Z), length l = length l' -> (i < length l)%nat -> nth i (map2 f l l') 0 = f (nth i l 0) (nth i l' 0).
Proof.
  intro f. induction i as [|i IH]; intros [|x l] [|y l'] E H; cbn [length] in *; try lia; [reflexivity|]. cbn [map2 nth]. apply IH; lia.
Qed.

Lemma grown_sized : forall A d r t bs (g : grid_map A), map_range d r t -> grown d r t bs g -> exists cb, sized d r t bs g cb.
Proof.
  intros A d r t bs g M H. pose proof M as (Hd & HR & Ht).
  induction H as [v g H|bs g b v g' _ [cb Z] RQ E|bs g c v g' _ [cb Z] E|bs g x _ [cb Z]|bs g _ [cb Z]|bs g l _ [cb Z]].
  - exists (cb_empty d). destruct (zero_ordered d t) as (O & T & N). rewrite (empty_bounds d r) in H by exact HR.
    constructor; [exact (proj1 (wf_new _ _ _ _ _ _ M O T N H))|constructor|reflexivity|congruence].
  - destruct Z as [W Rs Zn Zs]. destruct (expand_step d r t g cb b v M W RQ) as (db & g'' & cb' & u & Edb & E' & W' & [U1 U2] & T1 & T2 & [S1 S2] & _).
    assert (g'' = g') by congruence. subst g''. rewrite (asked_is d r b db HR RQ Edb) in *. exists cb'.
    destruct (asked_length d r b RQ) as [LA1 LA2]. pose proof (asked_some d r b HR RQ) as LT.
    assert (NE : cb' <> cb_empty d).
    { intros ->. unfold cb_empty, cell_origin in *. cbn [cmin cmax] in *. clear -LT S1 S2 Hd LA1. revert LT S1 S2 LA1. unfold cell.
      generalize (cmin (asked r b)) (cmax (asked r b)). intros [|x l] l' LT S1 S2 L; [cbn in L; lia|]. clear L.
      destruct d; [lia|]. cbn [repeat] in *. inversion LT; subst. inversion S1; inversion S2; subst. lia. }
    constructor; [exact W'|apply Forall_app; auto|intro K; destruct bs; discriminate K|]. intros _. split; [exact NE|]. intros i Hi. rewrite map_app. cbn [map].
    assert (Lu : forall P (l l' : list Z), Forall2 P l l' -> length l = d -> P (nth i l 0) (nth i l' 0)).
    { intros P l l' F L. pose proof (Forall2_length _ _ _ F) as L'. apply (proj1 (Forall2_nth_iff _ 0 0 _ _ L') F). now rewrite L. }
    destruct bs as [|b0 bs0].
    + rewrite (U1 (Zn eq_refl)) in T1, T2. cbn [map app]. exists (nth i (cmin (asked r b)) 0), (nth i (cmax (asked r b)) 0).
      split; [split; [now left|constructor; [lia|constructor]]|]. split; [split; [now left|constructor; [lia|constructor]]|].
      split; [exact (Lu _ _ _ T1 LA1)|exact (Lu _ _ _ T2 LA2)].
    + destruct (Zs ltac:(discriminate)) as [Nz Tl]. rewrite (U2 Nz) in T1, T2. cbn [cmin cmax] in T1, T2. destruct (Tl i Hi) as (lo & hi & Lo & Hh & B1 & B2).
      destruct (wf_ordered _ _ _ _ _ W) as (O1 & O2 & _). unfold cell in *.
      exists (Z.min lo (nth i (cmin (asked r b)) 0)), (Z.max hi (nth i (cmax (asked r b)) 0)).
      rewrite !map_app. cbn [map]. split; [exact (least_snoc _ _ _ Lo)|]. split; [exact (greatest_snoc _ _ _ Hh)|].
      pose proof (Lu _ _ _ T1 ltac:(rewrite map2_length; congruence)) as Q1. pose proof (Lu _ _ _ T2 ltac:(rewrite map2_length; congruence)) as Q2.
      rewrite map2_nth_zero in Q1, Q2 by (try congruence; now rewrite ?O1, ?O2).
      split; [exact (below_min t _ _ _ _ ltac:(lia) B1 Q1)|exact (above_max t _ _ _ _ ltac:(lia) B2 Q2)].
  - exists cb. destruct Z as [W Rs Zn Zs]. destruct (set_storage g c v g' (wf_storage _ _ _ _ _ W) E) as (S & E1 & E2 & E3 & E4).
    constructor; try assumption. now apply (wf_same d r t g).
  - exists cb. destruct Z as [W Rs Zn Zs]. constructor; try assumption. apply (wf_same d r t g); try reflexivity; [assumption|]. apply (wf_storage _ _ _ _ _ W).
  - exists cb. destruct Z as [W Rs Zn Zs]. constructor; try assumption. apply (wf_same d r t g); try reflexivity; [assumption|]. apply (wf_storage _ _ _ _ _ W).
  - exists cb. destruct Z as [W Rs Zn Zs]. constructor; try assumption. apply (wf_same d r t g); try reflexivity; [assumption|]. apply (wf_storage _ _ _ _ _ W).
Qed.

Lemma hull_least : forall d r bs h i, res_ok r -> Forall (request_ok d r) bs -> hull d bs h -> (i < d)%nat ->
  least (map (fun k => nth i (cmin k) 0) (map (asked r) bs)) (nth i (cmin (asked r h)) 0) /\
  greatest (map (fun k => nth i (cmax k) 0) (map (asked r) bs)) (nth i (cmax (asked r h)) 0).
Proof.
  intros d r bs h i HR Rs (H1 & H2 & Hh) Hi. destruct (Hh i Hi) as ((b1 & I1 & E1) & (b2 & I2 & E2) & F). clear Hh.
  assert (N1 : forall b, length (bmin b) = d -> nth i (cmin (asked r b)) 0 = wc r (fdisc_min1 r (nth i (bmin b) f0))).
  { intros b L. cbn [asked cmin]. rewrite map_map. unfold point in *. rewrite (nth_indep _ 0 (wc r (fdisc_min1 r f0))) by (rewrite map_length; lia). now rewrite (map_nth (fun x => wc r (fdisc_min1 r x))). }
  assert (N2 : forall b, length (bmax b) = d -> nth i (cmax (asked r b)) 0 = wc r (fdisc_max1 r true (nth i (bmax b) f0))).
  { intros b L. cbn [asked cmax]. rewrite map_map. unfold point in *. rewrite (nth_indep _ 0 (wc r (fdisc_max1 r true f0))) by (rewrite map_length; lia). now rewrite (map_nth (fun x => wc r (fdisc_max1 r true x))). }
  rewrite Forall_forall in Rs, F.
  assert (W : forall b, In b bs -> within_cells (2 ^ 18) r (nth i (bmin b) f0) /\ within_cells (2 ^ 18) r (nth i (bmax b) f0)).
  { intros b Hb. destruct (Rs b Hb) as ((L1 & L2 & _) & W1 & W2). rewrite Forall_forall in W1, W2. split; [apply W1|apply W2]; apply nth_In; unfold point in *; lia. }
  assert (Lb : forall b, In b bs -> length (bmin b) = d /\ length (bmax b) = d) by (intros b Hb; destruct (Rs b Hb) as ((L1 & L2 & _) & _); auto).
  rewrite !map_map. split; split.
  - rewrite N1, <- E1, <- N1 by (try assumption; now apply Lb). apply in_map_iff. now exists b1.
  - apply Forall_forall. intros z Hz. apply in_map_iff in Hz. destruct Hz as (b & <- & Hb). rewrite !N1 by (try assumption; now apply Lb). destruct (F b Hb) as [F1 _].
    rewrite <- E1 in *. apply disc_lower; try assumption; now apply W.
  - rewrite N2, <- E2, <- N2 by (try assumption; now apply Lb). apply in_map_iff. now exists b2.
  - apply Forall_forall. intros z Hz. apply in_map_iff in Hz. destruct Hz as (b & <- & Hb). rewrite !N2 by (try assumption; now apply Lb). destruct (F b Hb) as [_ F2].
    rewrite <- E2 in *. apply disc_upper; try assumption; now apply W.
Qed.
Lemma hull_some : forall d bs h, (d = 2 \/ d = 3)%nat -> hull d bs h -> bs <> [].
Proof. intros d bs h Hd (_ & _ & H) ->. destruct (H 0%nat ltac:(lia)) as ((b & [] & _) & _). Qed.
Lemma hull_request : forall d r bs h, (d = 2 \/ d = 3)%nat -> Forall (request_ok d r) bs -> hull d bs h -> request_ok d r h.
Proof.
  intros d r bs h Hd Rs (L1 & L2 & H). rewrite Forall_forall in Rs.
  assert (W : forall i, (i < d)%nat -> within_cells (2 ^ 18) r (nth i (bmin h) f0) /\ within_cells (2 ^ 18) r (nth i (bmax h) f0)).
  { intros i Hi. destruct (H i Hi) as ((b1 & I1 & <-) & (b2 & I2 & <-) & _). destruct (Rs b1 I1) as ((M1 & _) & W1 & _). destruct (Rs b2 I2) as ((_ & M2 & _) & _ & W2).
    rewrite Forall_forall in W1, W2. split; [apply W1|apply W2]; apply nth_In; unfold point in *; lia. }
  split; [split; [exact L1|]; split; [exact L2|]|split].
  - apply (Forall2_nth_iff _ f0 f0); [unfold point in *; congruence|]. intros i Hi. unfold point in *. rewrite L1 in Hi. destruct (W i Hi) as [[F1 _] [F2 _]].
    destruct (H i Hi) as ((b1 & I1 & _) & _ & F). rewrite Forall_forall in F. destruct (F b1 I1) as [G1 G2]. destruct (Rs b1 I1) as ((M1 & M2 & O) & W1 & W2).
    pose proof (proj1 (Forall2_nth_iff _ f0 f0 _ _ (eq_trans M1 (eq_sym M2))) O i ltac:(unfold point in *; lia)) as G3.
    rewrite Forall_forall in W1, W2. destruct (W1 (nth i (bmin b1) f0)) as [K1 _]; [apply nth_In; unfold point in *; lia|]. destruct (W2 (nth i (bmax b1) f0)) as [K2 _]; [apply nth_In; unfold point in *; lia|].
    apply fle_reals in G3; try assumption. apply fleb_iff. rewrite !ext_finite by assumption. unfold finite, real in *.
    split; [now apply is_finite_not_nan|]. split; [now apply is_finite_not_nan|]. lra.
  - apply Forall_forall. intros x Hx. apply (In_nth _ _ f0) in Hx. destruct Hx as (i & Hi & <-). apply W. unfold point in *. lia.
  - apply Forall_forall. intros x Hx. apply (In_nth _ _ f0) in Hx. destruct Hx as (i & Hi & <-). apply W. unfold point in *. lia.
Qed.

Lemma sized_hull : forall A d r t bs h (g : grid_map A) cb, map_range d r t -> sized d r t bs g cb -> hull d bs h ->
  Forall2 (tile_below t) (cmin (asked r h)) (cmin cb) /\ Forall2 (tile_above t) (cmax (asked r h)) (cmax cb).
Proof.
  intros A d r t bs h g cb M [W Rs _ Zs] Hh. pose proof M as (Hd & HR & Ht). destruct (Zs (hull_some d bs h Hd Hh)) as [_ Tl].
  destruct (asked_length d r h (hull_request d r bs h Hd Rs Hh)) as [A1 A2]. destruct (wf_ordered _ _ _ _ _ W) as (L1 & L2 & _). unfold cell in *.
  split; apply (Forall2_nth_iff _ 0 0); try congruence; intros i Hi; rewrite ?A1, ?A2 in Hi; destruct (Tl i Hi) as (lo & hi & Q1 & Q2 & B1 & B2);
    destruct (hull_least d r bs h i HR Rs Hh Hi) as [P1 P2].
  - now rewrite (least_one _ _ _ P1 Q1).
  - now rewrite (greatest_one _ _ _ P2 Q2).
Qed.

Lemma extent : forall A d r t bs h (g : grid_map A), map_range d r t -> grown d r t bs g -> hull d bs h ->
  exists k cb, box_cells r h k /\ covers_cells d r t g cb /\ Forall2 (tile_below t) (cmin k) (cmin cb) /\ Forall2 (tile_above t) (cmax k) (cmax cb).
Proof.
  intros A d r t bs h g M H Hh. destruct (grown_sized A d r t bs g M H) as [cb Z]. pose proof Z as [W Rs _ _].
  exists (asked r h), cb. split; [apply (asked_cells d); [apply M|apply (hull_request d r bs h (proj1 M) Rs Hh)]|]. split; [now apply wf_covers|]. exact (sized_hull A d r t bs h g cb M Z Hh).
Qed.

Lemma tile_lists : forall t l x y, 1 <= t -> Forall2 (tile_below t) l x -> Forall2 (tile_below t) l y -> x = y.
Proof. intros t l x y Ht F. revert y. induction F as [|a b l x H F IH]; intros y G; inversion G; subst; [reflexivity|]. f_equal; [now apply (below_one t a)|now apply IH]. Qed.
Lemma tile_lists' : forall t l x y, 1 <= t -> Forall2 (tile_above t) l x -> Forall2 (tile_above t) l y -> x = y.
Proof. intros t l x y Ht F. revert y. induction F as [|a b l x H F IH]; intros y G; inversion G; subst; [reflexivity|]. f_equal; [now apply (above_one t a)|now apply IH]. Qed.
Lemma same_hull : forall A B d r t bs bs' h (g : grid_map A) (g' : grid_map B), map_range d r t -> grown d r t bs g -> grown d r t bs' g' ->
  hull d bs h -> hull d bs' h -> gm_bounds g = gm_bounds g' /\ nd_shape (gm_data g) = nd_shape (gm_data g').
Proof.
  intros A B d r t bs bs' h g g' M H H' S S'. destruct (grown_sized A d r t bs g M H) as [cb Z]. destruct (grown_sized B d r t bs' g' M H') as [cb' Z'].
  destruct (sized_hull A d r t bs h g cb M Z S) as [T1 T2]. destruct (sized_hull B d r t bs' h g' cb' M Z' S') as [T1' T2'].
  assert (E : cb = cb').
  { destruct M as (_ & _ & Ht). destruct cb as [a b], cb' as [a' b']. cbn [cmin cmax] in *. f_equal; [exact (tile_lists t _ a a' ltac:(lia) T1 T1')|exact (tile_lists' t _ b b' ltac:(lia) T2 T2')]. }
  subst cb'. destruct Z as [W _ _ _], Z' as [W' _ _ _].
  split; [rewrite (wf_bounds _ _ _ _ _ W), (wf_bounds _ _ _ _ _ W'); reflexivity|rewrite (wf_shape _ _ _ _ _ W), (wf_shape _ _ _ _ _ W'); reflexivity].
Qed.

(** Every list of boxes has a hull. *)
Definition lower (x y : f32) : f32 := if Rle_dec (real x) (real y) then x else y.
Definition upper (x y : f32) : f32 := if Rle_dec (real x) (real y) then y else x.
Lemma hull_exists : forall d bs, bs <> [] -> Forall (fun b => length (bmin b) = d /\ length (bmax b) = d) bs -> exists h, hull d bs h.
Proof.
  intros d bs N F. induction bs as [|b bs IH]; [congruence|]. inversion F as [|? ? [L1 L2] F' EQ1]; clear EQ1. destruct bs as [|b' bs].
  - exists b. split; [exact L1|]. split; [exact L2|]. intros i Hi. split; [exists b; split; [now left|reflexivity]|]. split; [exists b; split; [now left|reflexivity]|]. constructor; [lra|constructor].
  - clear F H. destruct (IH ltac:(discriminate) F') as (h & H1 & H2 & H). unfold point in *.
    assert (P1 : forall i, (i < d)%nat -> nth i (map2 lower (bmin b) (bmin h)) f0 = lower (nth i (bmin b) f0) (nth i (bmin h) f0)).
    { clear -L1 H1. intros i Hi. revert L1 H1 Hi. generalize (bmin b) (bmin h) d. clear. induction i as [|i IH]; intros [|x l] [|y l'] d L1 H1 Hi; cbn [length] in *; try lia; [reflexivity|]. cbn [map2 nth]. apply (IH l l' (Nat.pred d)); lia. }
    assert (P2 : forall i, (i < d)%nat -> nth i (map2 upper (bmax b) (bmax h)) f0 = upper (nth i (bmax b) f0) (nth i (bmax h) f0)).
    { clear -L2 H2. intros i Hi. revert L2 H2 Hi. generalize (bmax b) (bmax h) d. clear. induction i as [|i IH]; intros [|x l] [|y l'] d L1 H1 Hi; cbn [length] in *; try lia; [reflexivity|]. cbn [map2 nth]. apply (IH l l' (Nat.pred d)); lia. }
    exists (mkBounds (map2 lower (bmin b) (bmin h)) (map2 upper (bmax b) (bmax h))). unfold hull. cbn [bmin bmax].
    split; [rewrite map2_length; congruence|]. split; [rewrite map2_length; congruence|]. intros i Hi. rewrite P1, P2 by assumption.
    destruct (H i Hi) as ((b1 & I1 & E1) & (b2 & I2 & E2) & G). unfold lower, upper. split; [|split].
    + destruct (Rle_dec _ _); [exists b; split; [now left|reflexivity]|exists b1; split; [now right|exact E1]].
    + destruct (Rle_dec _ _); [exists b2; split; [now right|exact E2]|exists b; split; [now left|reflexivity]].
    + constructor.
      * split; destruct (Rle_dec _ _); lra.
      * eapply Forall_impl; [|exact G]. cbv beta. intros b0 [G1 G2]. split; destruct (Rle_dec _ _); lra.
Qed.
Lemma hull_same : forall d bs bs' h, (forall b, In b bs <-> In b bs') -> hull d bs h -> hull d bs' h.
Proof.
  intros d bs bs' h S (H1 & H2 & H). split; [exact H1|]. split; [exact H2|]. intros i Hi. destruct (H i Hi) as ((b1 & I1 & E1) & (b2 & I2 & E2) & F).
  split; [exists b1; split; [now apply S|exact E1]|]. split; [exists b2; split; [now apply S|exact E2]|].
  rewrite Forall_forall in *. intros b Hb. apply F. now apply S.
Qed.
Lemma same_requests : forall A B d r t bs bs' (g : grid_map A) (g' : grid_map B), map_range d r t -> grown d r t bs g -> grown d r t bs' g' ->
  (forall b, In b bs <-> In b bs') -> gm_bounds g = gm_bounds g' /\ nd_shape (gm_data g) = nd_shape (gm_data g').
Proof.
  intros A B d r t bs bs' g g' M H H' S. destruct bs as [|b bs].
  - destruct bs' as [|b' bs']; [|exfalso; apply (S b'); now left].
    destruct (grown_sized A d r t [] g M H) as [cb [W _ Zn _]]. destruct (grown_sized B d r t [] g' M H') as [cb' [W' _ Zn' _]]. rewrite (Zn eq_refl) in W. rewrite (Zn' eq_refl) in W'.
    split; [rewrite (wf_bounds _ _ _ _ _ W), (wf_bounds _ _ _ _ _ W'); reflexivity|rewrite (wf_shape _ _ _ _ _ W), (wf_shape _ _ _ _ _ W'); reflexivity].
  - destruct (grown_sized A d r t (b :: bs) g M H) as [cb [_ Rs _ _]].
    destruct (hull_exists d (b :: bs) ltac:(discriminate)) as [h Hh]; [eapply Forall_impl; [|exact Rs]; intros a ((L1 & L2 & _) & _); auto|].
    exact (same_hull A B d r t _ _ h g g' M H H' Hh (hull_same d _ _ h S Hh)).
Qed.

Lemma size_bound : forall A d r t bs (g : grid_map A) i x X, map_range d r t -> grown d r t bs g -> (i < d)%nat -> (x <= X)%R -> between i x X bs ->
  (0 <= IZR (nth i (nd_shape (gm_data g)) 0%Z) < (X - x) / real r + 2 / 5 + 2 * IZR t)%R.
Proof.
  intros A d r t bs g i x X M H Hi HX Bt. pose proof M as (Hd & HR & Ht). pose proof (res_ok_pos r HR) as P.
  destruct (grown_sized A d r t bs g M H) as [cb [W Rs Zn Zs]]. destruct (wf_ordered _ _ _ _ _ W) as (L1 & L2 & O). unfold cell in *.
  rewrite (wf_shape _ _ _ _ _ W), map2_nth_zero by (try congruence; now rewrite L2).
  assert (O' : nth i (cmin cb) 0 <= nth i (cmax cb) 0) by (apply (proj1 (Forall2_nth_iff _ 0 0 _ _ (eq_trans L1 (eq_sym L2))) O); now rewrite L1).
  assert (T1 : (1 <= IZR t)%R) by (apply IZR_le; lia).
  split; [apply IZR_le; lia|].
  destruct bs as [|b0 bs0].
  { rewrite (Zn eq_refl). unfold cb_empty, cell_origin. cbn [cmin cmax]. replace (nth i (repeat 0 d) 0) with 0 by (symmetry; clear; revert i; induction d; intros [|i]; cbn; auto).
    rewrite Z.sub_diag. assert (0 <= (X - x) / real r)%R by (apply Rmult_le_pos; [lra|]; left; apply Rinv_0_lt_compat; exact P). lra. }
  set (bs := b0 :: bs0) in *. destruct (Zs ltac:(discriminate)) as [_ Tl]. destruct (Tl i Hi) as (lo & hi & [Lo _] & [Hh _] & [_ [B1 B1']] & [_ [B2 B2']]).
  apply in_map_iff in Lo, Hh. destruct Lo as (k1 & <- & K1), Hh as (k2 & <- & K2). apply in_map_iff in K1, K2. destruct K1 as (b1 & <- & I1), K2 as (b2 & <- & I2).
  unfold between in Bt. rewrite Forall_forall in Rs, Bt. destruct (Bt _ I1) as [X1 _]. destruct (Bt _ I2) as [_ X2].
  destruct (asked_length d r b1 (Rs _ I1)) as [A1 _]. destruct (asked_length d r b2 (Rs _ I2)) as [_ A2].
  destruct (asked_cells d r b1 HR (Rs _ I1)) as [C1 _]. destruct (asked_cells d r b2 HR (Rs _ I2)) as [_ C2].
  pose proof (Forall2_length _ _ _ C1) as M1. pose proof (Forall2_length _ _ _ C2) as M2. unfold cell, point in *.
  pose proof (proj1 (Forall2_nth_iff _ 0 f0 _ _ M1) C1 i ltac:(now rewrite A1)) as D1. pose proof (proj1 (Forall2_nth_iff _ 0 f0 _ _ M2) C2 i ltac:(now rewrite A2)) as D2. cbv beta in D1, D2.
  rewrite minus_IZR. assert (B1z : nth i (cmin (asked r b1)) 0 + 1 <= nth i (cmin cb) 0 + t) by lia. assert (B2z : nth i (cmax cb) 0 + 1 <= nth i (cmax (asked r b2)) 0 + t) by lia.
  apply IZR_le in B1z, B2z. rewrite !plus_IZR in B1z, B2z.
  assert (E1 : (x / real r <= real (nth i (bmin b1) f0) / real r)%R) by (apply Rmult_le_compat_r; [left; apply Rinv_0_lt_compat; exact P|exact X1]).
  assert (E2 : (real (nth i (bmax b2) f0) / real r <= X / real r)%R) by (apply Rmult_le_compat_r; [left; apply Rinv_0_lt_compat; exact P|exact X2]).
  unfold Rdiv in *. lra.
Qed.

(** ** Scans *)
Lemma upd_cells_grown : forall d r t bs f cells g g', grown d r t bs g -> ofold (upd_cell f) g cells = Ret g' -> grown d r t bs g'.
Proof.
  intros d r t bs f. induction cells as [|c cells IH]; intros g g' H E; cbn [ofold] in E; [now injection E as <-|].
  destruct (upd_cell f g c) as [g1| |] eqn:E1; try discriminate. cbn [obind] in E. apply (IH g1); [|assumption].
  unfold upd_cell in E1. destruct (gm_get g c); try discriminate. cbn [obind] in E1. eapply grown_set; eassumption.
Qed.
Lemma integrate_grown : forall d r t bs fuel of oo m g o cloud g', grown d r t bs g -> request_ok d r (pc_bounds cloud) ->
  integrate_point_cloud fuel of oo m g o cloud = Ret g' -> grown d r t (bs ++ [pc_bounds cloud]) g'.
Proof.
  intros d r t bs fuel of oo m g o cloud g' H RQ E. rewrite integrate_unfold in E.
  destruct (gm_expand_bounds _ _ _) as [g1| |] eqn:E1; try discriminate. cbn [obind] in E.
  destruct (cast_rays _ _ _ _ _ _) as [fo| |]; try discriminate. cbn [obind] in E.
  destruct (ofold (integrate_miss m) _ _) as [g2| |] eqn:E2; try discriminate. cbn [obind] in E.
  destruct (ofold (integrate_hit m) _ _) as [g3| |] eqn:E3; try discriminate. cbn [obind] in E. injection E as <-.
  apply (upd_cells_grown d r t (bs ++ [pc_bounds cloud]) (miss_value m)) in E2; [|eapply grown_expand; eassumption].
  apply (upd_cells_grown d r t (bs ++ [pc_bounds cloud]) (hit_value m)) in E3; [|exact E2].
  destruct (gm_track_changes g1); [apply grown_add|]; exact E3.
Qed.
Definition boxes (L : list (point * matrix)) : list bounds := map (fun s => pc_bounds (snd s)) L.
Lemma scanned_grown : forall d r t m o L, scanned d r t m o L -> grown d r t (boxes L) (om_grid o).
Proof.
  intros d r t m o L H. induction H as [o E|o L fuel of oo origin cloud o' H IH Hf Ho SO Fu E|o L x H IH|o L H IH].
  - unfold om_new in E. destruct (gm_new _ _ _ _) as [g| |] eqn:G; try discriminate. cbn [obind] in E. injection E as <-. cbn [om_grid]. eapply grown_new. exact G.
  - unfold boxes. rewrite map_app. cbn [map snd]. unfold om_integrate in E. destruct (integrate_point_cloud _ _ _ _ _ _ _) as [g| |] eqn:G; try discriminate. cbn [obind] in E. injection E as <-. cbn [om_grid].
    eapply integrate_grown; [exact IH| |exact G]. apply SO.
  - cbn [om_grid]. now apply grown_track.
  - cbn [om_grid]. now apply grown_clear.
Qed.
Lemma same_scans : forall d r t m m' o o' L L', map_range d r t -> scanned d r t m o L -> scanned d r t m' o' L' ->
  (forall s, In s (map snd L) <-> In s (map snd L')) -> gm_bounds (om_grid o) = gm_bounds (om_grid o') /\ nd_shape (gm_data (om_grid o)) = nd_shape (gm_data (om_grid o')).
Proof.
  intros d r t m m' o o' L L' M H H' S. apply (same_requests f32 f32 d r t (boxes L) (boxes L')); [exact M|now apply scanned_grown with m|now apply scanned_grown with m'|].
  assert (E : forall K : list (point * matrix), boxes K = map pc_bounds (map snd K)) by (intro K; unfold boxes; rewrite map_map; reflexivity).
  intro b. rewrite !E, !in_map_iff. split; intros (c & <- & Hc); exists c; (split; [reflexivity|now apply S]).
Qed.

(** ** The program *)
Lemma program_frames : forall rec d r t m tr s, recording_ok d r t rec -> limit_near (max_range m) r -> reaches rec d m r t tr s ->
  exists L, scanned d r t m (grid s) L /\ length L = integrations tr /\
    forall k, (k < integrations tr)%nat -> exists o c, nth_error L k = Some (o, c) /\ nth_error (clouds rec) (k mod length (clouds rec)) = Some c.
Proof.
  intros rec d r t m tr s RO HM Re. pose proof RO as (R & _). destruct (prog_run rec d r t m tr s RO HM Re) as [I [PA (L & cbP & SC & ST & LI & WP & NC) PF]].
  exists L. split; [exact SC|]. split; [exact LI|]. intros k Hk. destruct (nth_error L k) as [[o c]|] eqn:E; [|apply nth_error_None in E; lia].
  exists o, c. split; [reflexivity|]. apply (cyclic_run rec d m r t tr s k o c R Re). rewrite ST, nth_error_app1; [exact E|]. lia.
Qed.
Lemma program_size : forall rec d r t m tr s i x X, recording_ok d r t rec -> limit_near (max_range m) r -> reaches rec d m r t tr s ->
  (i < d)%nat -> (x <= X)%R -> between i x X (map pc_bounds (clouds rec)) ->
  (0 <= IZR (nth i (nd_shape (gm_data (om_grid (grid s)))) 0%Z) < (X - x) / real r + 2 / 5 + 2 * IZR t)%R.
Proof.
  intros rec d r t m tr s i x X RO HM Re Hi HX Bt. pose proof RO as (_ & M & _). destruct (program_frames rec d r t m tr s RO HM Re) as (L & SC & LL & Fr).
  apply (size_bound f32 d r t (boxes L)); try assumption; [now apply scanned_grown with m|].
  unfold between in *. rewrite Forall_forall in *. intros b Hb. apply Bt. unfold boxes in Hb. apply in_map_iff in Hb. destruct Hb as ([o c] & <- & Hin). cbn [snd].
  apply In_nth_error in Hin. destruct Hin as [k Ek]. assert (k < integrations tr)%nat by (rewrite <- LL; apply nth_error_Some; congruence).
  destruct (Fr k H) as (o' & c' & E1 & E2). rewrite Ek in E1. injection E1 as <- <-. apply in_map. eapply nth_error_In. exact E2.
Qed.
Lemma size_settles : forall rec d r t m m' tr tr' s s', recording_ok d r t rec -> limit_near (max_range m) r -> limit_near (max_range m') r ->
  reaches rec d m r t tr s -> reaches rec d m' r t tr' s' -> (length (clouds rec) <= integrations tr)%nat -> (length (clouds rec) <= integrations tr')%nat ->
  gm_bounds (om_grid (grid s)) = gm_bounds (om_grid (grid s')) /\ nd_shape (gm_data (om_grid (grid s))) = nd_shape (gm_data (om_grid (grid s'))).
Proof.
  intros rec d r t m m' tr tr' s s' RO HM HM' Re Re' I1 I2. pose proof RO as (_ & M & _).
  destruct (program_frames rec d r t m tr s RO HM Re) as (L & SC & LL & Fr). destruct (program_frames rec d r t m' tr' s' RO HM' Re') as (L' & SC' & LL' & Fr').
  assert (Q : forall K n, length K = n -> (length (clouds rec) <= n)%nat ->
    (forall k, (k < n)%nat -> exists o c, nth_error K k = Some (o, c) /\ nth_error (clouds rec) (k mod length (clouds rec)) = Some c) ->
    forall c : matrix, In c (map (@snd point matrix) K) <-> In c (clouds rec)).
  { clear. intros K n LK LN Fr c. split; intro Hin.
    - apply in_map_iff in Hin. destruct Hin as ([o c'] & <- & Hin). cbn [snd]. apply In_nth_error in Hin. destruct Hin as [k Ek].
      assert (H : (k < n)%nat) by (rewrite <- LK; apply nth_error_Some; congruence). destruct (Fr k H) as (o' & c'' & E1 & E2). rewrite Ek in E1. injection E1 as <- <-. eapply nth_error_In. exact E2.
    - apply In_nth_error in Hin. destruct Hin as [k Ek]. assert (Hk : (k < length (clouds rec))%nat) by (apply nth_error_Some; congruence).
      destruct (Fr k ltac:(lia)) as (o & c' & E1 & E2). rewrite Nat.mod_small in E2 by exact Hk. rewrite Ek in E2. injection E2 as <-.
      change c with (snd (o, c)). apply in_map. eapply nth_error_In. exact E1. }
  apply (same_scans d r t m m' _ _ L L' M SC SC'). intro c. rewrite (Q L _ LL I1 Fr), (Q L' _ LL' I2 Fr'). reflexivity.
Qed.
