(** Proofs about bounds.rs, cell_bounds.rs. *)
From Coq Require Import ZArith List Bool Reals Lra Lia Psatz.
From Flocq Require Import Core BinarySingleNaN.
From Verif Require Import Base F32 FloatFacts RoundError Arith Geom Spec MathProofs ConverterProofs.
Open Scope R_scope.

(** ** Lists *)
Lemma forallb_combine_Forall2 : forall {A B} (f : A -> B -> bool) l m, length l = length m ->
  (forallb (fun ab => f (fst ab) (snd ab)) (combine l m) = true <-> Forall2 (fun a b => f a b = true) l m).
Proof.
  intros A B f. induction l as [|x l IH]; intros [|y m] L; try discriminate; cbn.
  - split; auto.
  - rewrite andb_true_iff. injection L as L. rewrite (IH m L). split.
    + intros [H1 H2]. now constructor.
    + intro H. inversion H; subst. auto.
Qed.

Lemma Forall2_nth_iff : forall {A B} (P : A -> B -> Prop) a b l m, length l = length m ->
  (Forall2 P l m <-> forall i, (i < length l)%nat -> P (nth i l a) (nth i m b)).
Proof.
  intros A B P a b. induction l as [|x l IH]; intros [|y m] L; try discriminate; cbn.
  - split; intros; [lia|constructor].
  - injection L as L. split.
    + intro H. inversion H; subst. intros [|i] Hi; [assumption|]. apply (IH m L); [assumption|lia].
    + intro H. constructor. apply (H 0%nat); lia. apply (IH m L). intros i Hi. apply (H (S i)). lia.
Qed.

Lemma fle_refl : forall x : f32, is_nan x = false -> fle x x.
Proof. intros x N. apply fleb_iff. repeat split; try assumption. lra. Qed.
Lemma fle_trans : forall x y z : f32, fle x y -> fle y z -> fle x z.
Proof. intros x y z H1 H2. apply fleb_iff in H1, H2. apply fleb_iff. repeat split; try tauto. lra. Qed.
Lemma fle_nan_l : forall x y : f32, fle x y -> is_nan x = false.
Proof. intros x y H. now apply fleb_iff in H. Qed.
Lemma fle_nan_r : forall x y : f32, fle x y -> is_nan y = false.
Proof. intros x y H. now apply fleb_iff in H. Qed.

(** ** C10 *)
Lemma bounds_new_iff : forall (mn mx : point) b, length mn = length mx ->
  (bounds_new mn mx = Ret b <-> Forall2 fle mn mx /\ b = mkBounds mn mx).
Proof.
  intros mn mx b L. unfold bounds_new.
  pose proof (forallb_combine_Forall2 fleb mn mx L) as H.
  destruct (forallb _ _); cbn; split.
  - intro E. injection E as <-. split; [|reflexivity]. now apply H.
  - intros [_ ->]. reflexivity.
  - discriminate.
  - intros [F _]. apply H in F. discriminate.
Qed.
Lemma bounds_new_panic : forall (mn mx : point), length mn = length mx ->
  (bounds_new mn mx = Panic <-> ~ Forall2 fle mn mx).
Proof.
  intros mn mx L. unfold bounds_new.
  pose proof (forallb_combine_Forall2 fleb mn mx L) as H.
  destruct (forallb _ _); cbn; split; try discriminate.
  - intro N. exfalso. apply N. now apply H.
  - intros _ F. apply H in F. discriminate.
  - reflexivity.
Qed.
Lemma bounds_new_nan : forall (mn mx : point), length mn = length mx ->
  Exists (fun x => is_nan x = true) (mn ++ mx) -> bounds_new mn mx = Panic.
Proof.
  intros mn mx L E. apply bounds_new_panic; [assumption|]. intro F.
  apply Exists_app in E. clear L.
  induction F as [|x y mn mx Hxy F IH].
  - destruct E as [E|E]; inversion E.
  - pose proof (fle_nan_l _ _ Hxy). pose proof (fle_nan_r _ _ Hxy).
    apply IH. destruct E as [E|E]; inversion E; subst; try congruence; auto.
Qed.
Lemma cb_new_iff : forall (mn mx : cell) b, length mn = length mx ->
  (cb_new mn mx = Ret b <-> Forall2 Z.le mn mx /\ b = mkCB mn mx).
Proof.
  intros mn mx b L. unfold cb_new.
  pose proof (forallb_combine_Forall2 Z.leb mn mx L) as H.
  assert (G : Forall2 (fun a b => (a <=? b)%Z = true) mn mx <-> Forall2 Z.le mn mx).
  { clear. split; intro F; induction F; constructor; try assumption; now apply Z.leb_le. }
  rewrite G in H.
  destruct (forallb _ _); cbn; split.
  - intro E. injection E as <-. split; [|reflexivity]. now apply H.
  - intros [_ ->]. reflexivity.
  - discriminate.
  - intros [F _]. apply H in F. discriminate.
Qed.
Lemma cb_new_panic : forall (mn mx : cell), length mn = length mx ->
  (cb_new mn mx = Panic <-> ~ Forall2 Z.le mn mx).
Proof.
  intros mn mx L. pose proof (cb_new_iff mn mx (mkCB mn mx) L) as H. unfold cb_new in *.
  unfold oassert in *. destruct (forallb _ _); cbn in *.
  - split; [discriminate|]. intro N. exfalso. apply N. now apply H.
  - split; [|reflexivity]. intros _ F. destruct H as [_ H]. discriminate H. auto.
Qed.

(** ** C11 *)
Open Scope Z_scope.

(** Truncated remainder in terms of floor division. *)
Lemma rem_facts : forall t c, 0 < t ->
  Z.abs (Z.rem c t) < t /\
  (0 <= c -> Z.abs (Z.rem c t) = c - c / t * t) /\
  (c < 0 -> Z.abs (Z.rem c t) = - c - (- c) / t * t) /\
  (Z.rem c t = 0 -> c / t * t = c /\ - ((- c) / t) * t = c) /\
  (Z.rem c t <> 0 -> c / t * t = - ((- c) / t) * t - t) /\
  c / t * t <= c < c / t * t + t /\ - ((- c) / t) * t - t < c <= - ((- c) / t) * t.
Proof.
  intros t c Ht.
  pose proof (Z.div_mod c t ltac:(lia)) as E1. pose proof (Z.mod_pos_bound c t Ht) as B1.
  pose proof (Z.div_mod (- c) t ltac:(lia)) as E2. pose proof (Z.mod_pos_bound (- c) t Ht) as B2.
  assert (R1 : 0 <= c -> Z.rem c t = c mod t) by (intro; apply Z.rem_mod_nonneg; lia).
  assert (R2 : c < 0 -> Z.rem c t = - ((- c) mod t)).
  { intro. rewrite <- (Z.rem_mod_nonneg (- c) t) by lia. rewrite Z.rem_opp_l by lia. lia. }
  set (q := c / t) in *. set (m := c mod t) in *. set (q' := (- c) / t) in *. set (m' := (- c) mod t) in *.
  assert (S : (q + q') * t = - (m + m')) by nia.
  assert (D : q + q' = 0 /\ m + m' = 0 \/ q + q' = -1 /\ m + m' = t).
  { assert (q + q' <= 0) by nia. assert (-2 < q + q') by nia.
    assert (C : q + q' = 0 \/ q + q' = -1) by lia. destruct C as [C|C]; rewrite C in S; lia. }
  destruct (Z.ltb_spec c 0) as [L|L].
  - specialize (R2 L). repeat split; intros; try lia; nia.
  - specialize (R1 L). repeat split; intros; try lia; nia.
Qed.
Ltac rem_cases t c :=
  let H := fresh in pose proof (rem_facts t c) as H;
  destruct H as (Rabs & Rpos & Rneg & Rzero & Rnz & Rlo & Rhi); [lia|].

Lemma isz_ret : forall a b, isz a = Ret b -> b = a /\ isize_min <= a <= isize_max.
Proof.
  intros a b H. unfold isz in H. destruct (in_isize a) eqn:E; try discriminate.
  injection H as <-. split; [reflexivity|]. unfold in_isize in E. apply andb_true_iff in E. lia.
Qed.
Lemma isz_ok : forall a, isize_min <= a <= isize_max -> isz a = Ret a.
Proof.
  intros a H. unfold isz. replace (in_isize a) with true; [reflexivity|].
  unfold in_isize. symmetry. apply andb_true_iff. lia.
Qed.

Lemma isize_max_min : isize_max = - isize_min - 1. Proof. reflexivity. Qed.

Lemma disc_min1_spec : forall t c, 0 < t <= isize_max -> isize_min <= c <= isize_max ->
  disc_min1 t c = isz (c / t * t).
Proof.
  intros t c Ht Hc. pose proof isize_max_min as M. unfold disc_min1. rem_cases t c.
  destruct (Z.eqb_spec t 0) as [E|_]; [lia|]. cbn [negb oassert obind].
  rewrite (isz_ok (Z.rem c t)) by lia. cbn [obind].
  rewrite (isz_ok (Z.abs (Z.rem c t))) by lia. cbn [obind].
  destruct (Z.eqb_spec (Z.abs (Z.rem c t)) 0) as [E|E].
  - replace (c / t * t) with c by (symmetry; apply Rzero; lia). now rewrite isz_ok.
  - specialize (Rnz ltac:(lia)). destruct (Z.ltb_spec c 0).
    + rewrite isz_ok by lia. cbn [obind]. f_equal. lia.
    + f_equal. lia.
Qed.

Lemma disc_max1_spec : forall t c, 0 < t <= isize_max -> isize_min <= c <= isize_max ->
  disc_max1 t c = isz (- ((- c) / t) * t).
Proof.
  intros t c Ht Hc. pose proof isize_max_min as M. unfold disc_max1. rem_cases t c.
  destruct (Z.eqb_spec t 0) as [E|_]; [lia|]. cbn [negb oassert obind].
  rewrite (isz_ok (Z.rem c t)) by lia. cbn [obind].
  rewrite (isz_ok (Z.abs (Z.rem c t))) by lia. cbn [obind].
  destruct (Z.eqb_spec (Z.abs (Z.rem c t)) 0) as [E|E].
  - replace (- (- c / t) * t) with c by (symmetry; apply Rzero; lia). now rewrite isz_ok.
  - specialize (Rnz ltac:(lia)). destruct (Z.ltb_spec c 0).
    + f_equal. lia.
    + rewrite isz_ok by lia. cbn [obind]. f_equal. lia.
Qed.

Lemma omap_Forall2 : forall {A B} (f : A -> outcome B) l l', omap f l = Ret l' ->
  Forall2 (fun a b => f a = Ret b) l l'.
Proof.
  intros A B f. induction l as [|x l IH]; intros l' H; cbn in H.
  - injection H as <-. constructor.
  - destruct (f x) eqn:E; cbn in H; try discriminate.
    destruct (omap f l) eqn:E'; cbn in H; try discriminate.
    injection H as <-. constructor; auto.
Qed.
Lemma omap_Ret : forall {A B} (f : A -> outcome B) l l',
  Forall2 (fun a b => f a = Ret b) l l' -> omap f l = Ret l'.
Proof.
  intros A B f l l' H. induction H as [|x y l l' E H IH]; cbn. reflexivity.
  rewrite E. cbn. rewrite IH. reflexivity.
Qed.

Lemma tile_below_div : forall t c, 0 < t -> tile_below t c (c / t * t).
Proof. intros t c H. rem_cases t c. split. apply Z.divide_factor_r. lia. Qed.
Lemma tile_above_div : forall t c, 0 < t -> tile_above t c (- ((- c) / t) * t).
Proof. intros t c H. rem_cases t c. split. apply Z.divide_factor_r. lia. Qed.
Lemma tile_below_unique : forall t c x, 0 < t -> tile_below t c x -> x = c / t * t.
Proof. intros t c x H [[k ->] B]. f_equal. apply (Z.div_unique_pos c t k (c - k * t)); lia. Qed.
Lemma tile_above_unique : forall t c x, 0 < t -> tile_above t c x -> x = - ((- c) / t) * t.
Proof.
  intros t c x H [[k ->] B]. f_equal. rewrite <- (Z.div_unique_pos (- c) t (- k) (k * t - c)); lia.
Qed.

Lemma isize_of_usize_small : forall t, t <= isize_max -> isize_of_usize t = t.
Proof. intros t H. unfold isize_of_usize. destruct (Z.leb_spec t isize_max); lia. Qed.

Lemma cb_discretized_iff : forall cb t cb', 0 < t <= isize_max ->
  cells_in_isize (cmin cb) -> cells_in_isize (cmax cb) ->
  (cb_discretized cb t = Ret cb' <->
   Forall2 (tile_below t) (cmin cb) (cmin cb') /\ Forall2 (tile_above t) (cmax cb) (cmax cb') /\
   cells_in_isize (cmin cb') /\ cells_in_isize (cmax cb')).
Proof.
  intros cb t cb' Ht Hmn Hmx. unfold cb_discretized. rewrite isize_of_usize_small by lia.
  assert (A : forall l l', cells_in_isize l ->
    (omap (disc_min1 t) l = Ret l' <-> Forall2 (tile_below t) l l' /\ cells_in_isize l')).
  { intros l l' Hl. split.
    - intro H. apply omap_Forall2 in H. induction H as [|x y l l' E H IH].
      { split; constructor. }
      inversion Hl; subst. rewrite disc_min1_spec in E by assumption. apply isz_ret in E. destruct E as [-> R].
      destruct (IH H3). split; constructor; auto. apply tile_below_div. lia.
    - intros [H R]. apply omap_Ret. induction H as [|x y l l' E H IH]; constructor.
      + inversion Hl; subst. inversion R; subst. rewrite disc_min1_spec by assumption.
        apply tile_below_unique in E; [|lia]. rewrite <- E. now apply isz_ok.
      + inversion Hl; inversion R; subst. auto. }
  assert (B : forall l l', cells_in_isize l ->
    (omap (disc_max1 t) l = Ret l' <-> Forall2 (tile_above t) l l' /\ cells_in_isize l')).
  { intros l l' Hl. split.
    - intro H. apply omap_Forall2 in H. induction H as [|x y l l' E H IH].
      { split; constructor. }
      inversion Hl; subst. rewrite disc_max1_spec in E by assumption. apply isz_ret in E. destruct E as [-> R].
      destruct (IH H3). split; constructor; auto. apply tile_above_div. lia.
    - intros [H R]. apply omap_Ret. induction H as [|x y l l' E H IH]; constructor.
      + inversion Hl; subst. inversion R; subst. rewrite disc_max1_spec by assumption.
        apply tile_above_unique in E; [|lia]. rewrite <- E. now apply isz_ok.
      + inversion Hl; inversion R; subst. auto. }
  split.
  - intro H. destruct (omap (disc_min1 t) (cmin cb)) as [mn| |] eqn:E1; cbn in H; try discriminate.
    destruct (omap (disc_max1 t) (cmax cb)) as [mx| |] eqn:E2; cbn in H; try discriminate.
    injection H as <-. cbn. apply A in E1; [|assumption]. apply B in E2; [|assumption]. tauto.
  - intros (H1 & H2 & H3 & H4). destruct cb' as [mn mx]; cbn in *.
    destruct (A (cmin cb) mn Hmn) as [_ A2]. rewrite A2 by tauto. cbn.
    destruct (B (cmax cb) mx Hmx) as [_ B2]. rewrite B2 by tauto. reflexivity.
Qed.

Lemma Forall2_map_r : forall {A B} (P : A -> B -> Prop) f l, (forall x, In x l -> P x (f x)) ->
  Forall2 P l (map f l).
Proof. intros A B P f. induction l; intro H; constructor. apply H; now left. apply IHl. intros. apply H; now right. Qed.

Lemma cb_discretized_ok : forall cb t, 0 < t -> 
  Forall (fun x => isize_min + t <= x <= isize_max - t) (cmin cb ++ cmax cb) ->
  exists cb', cb_discretized cb t = Ret cb'.
Proof.
  intros cb t Ht H. apply Forall_app in H. destruct H as [H1 H2].
  destruct (Z.leb_spec t isize_max) as [L|L].
  - exists (mkCB (map (fun c => c / t * t) (cmin cb)) (map (fun c => - ((- c) / t) * t) (cmax cb))).
    rewrite Forall_forall in H1, H2.
    apply cb_discretized_iff; [lia| | |]; cbn [cmin cmax].
    + apply Forall_forall. intros x Hx. specialize (H1 x Hx). cbn beta in H1. lia.
    + apply Forall_forall. intros x Hx. specialize (H2 x Hx). cbn beta in H2. lia.
    + repeat split.
      * apply Forall2_map_r. intros. now apply tile_below_div.
      * apply Forall2_map_r. intros. now apply tile_above_div.
      * apply Forall_forall. intros y Hy. apply in_map_iff in Hy. destruct Hy as (x & <- & Hx).
        specialize (H1 x Hx). cbn beta in H1. destruct (tile_below_div t x Ht). lia.
      * apply Forall_forall. intros y Hy. apply in_map_iff in Hy. destruct Hy as (x & <- & Hx).
        specialize (H2 x Hx). cbn beta in H2. destruct (tile_above_div t x Ht). lia.
  - pose proof isize_max_min. destruct cb as [[|x mn] [|y mx]]; cbn [cmin cmax] in *.
    + eexists. reflexivity.
    + inversion H2; subst. lia.
    + inversion H1; subst. lia.
    + inversion H1; subst. lia.
Qed.

Lemma cb_discretized_zero : forall cb, cmin cb <> [] -> cb_discretized cb 0 = Panic.
Proof. intros [[|x mn] mx] H; [now destruct H|]. reflexivity. Qed.
Lemma cb_discretized_huge : exists cb t cb', isize_max < t < 2 ^ 64 /\ Forall2 Z.le (cmin cb) (cmax cb) /\
  cells_in_isize (cmin cb) /\ cells_in_isize (cmax cb) /\ cb_discretized cb t = Ret cb' /\ ~ Forall2 Z.le (cmax cb) (cmax cb').
Proof.
  exists (mkCB [0] [5]), (2 ^ 64 - 4), (mkCB [0] [0]). split; [unfold isize_max; lia|]. split; [repeat constructor; cbn; lia|].
  split; [now constructor|]. split; [now constructor|]. split; [reflexivity|]. intro H. inversion H; subst. lia.
Qed.

Lemma tile_below_max : forall t c x m, 0 < t -> tile_below t c x -> (t | m) -> m <= c -> m <= x.
Proof.
  intros t c x m Ht [[k ->] B] [j ->] L. assert (j * t < (k + 1) * t) by lia.
  apply Z.mul_lt_mono_pos_r in H; [|assumption]. apply Z.mul_le_mono_nonneg_r; lia.
Qed.
Lemma tile_above_min : forall t c x m, 0 < t -> tile_above t c x -> (t | m) -> c <= m -> x <= m.
Proof.
  intros t c x m Ht [[k ->] B] [j ->] L. assert ((k - 1) * t < j * t) by lia.
  apply Z.mul_lt_mono_pos_r in H; [|assumption]. apply Z.mul_le_mono_nonneg_r; lia.
Qed.

(** smallest tile-aligned box containing the original *)
Lemma tiles_least : forall t l l' m, 0 < t -> Forall2 (tile_below t) l l' ->
  Forall2 Z.le m l -> Forall (fun x => (t | x)) m -> Forall2 Z.le m l'.
Proof.
  intros t l l' m Ht H. revert m. induction H as [|x y l l' D H IH]; intros m L A; inversion L; subst; constructor.
  - inversion A; subst. eapply tile_below_max; eauto.
  - apply IH; [assumption|]. now inversion A.
Qed.
Lemma tiles_greatest : forall t l l' m, 0 < t -> Forall2 (tile_above t) l l' ->
  Forall2 Z.le l m -> Forall (fun x => (t | x)) m -> Forall2 Z.le l' m.
Proof.
  intros t l l' m Ht H. revert m. induction H as [|x y l l' D H IH]; intros m L A; inversion L; subst; constructor.
  - inversion A; subst. eapply tile_above_min; eauto.
  - apply IH; [assumption|]. now inversion A.
Qed.

Lemma cb_discretized_idem : forall cb t cb', 0 < t <= isize_max ->
  cells_in_isize (cmin cb) -> cells_in_isize (cmax cb) ->
  cb_discretized cb t = Ret cb' -> cb_discretized cb' t = Ret cb'.
Proof.
  intros cb t cb' Ht H1 H2 H. apply cb_discretized_iff in H; try assumption.
  destruct H as (A & B & C & D). apply cb_discretized_iff; try assumption.
  repeat split; try assumption.
  - clear - A Ht. induction A as [|x y l l' [E F]]; constructor; auto. split; [assumption|]. lia.
  - clear - B Ht. induction B as [|x y l l' [E F]]; constructor; auto. split; [assumption|]. lia.
Qed.

Lemma cb_discretized_least : forall cb t cb' mn mx, 0 < t <= isize_max ->
  cells_in_isize (cmin cb) -> cells_in_isize (cmax cb) ->
  cb_discretized cb t = Ret cb' ->
  Forall2 Z.le mn (cmin cb) -> Forall2 Z.le (cmax cb) mx ->
  Forall (fun x => (t | x)) mn -> Forall (fun x => (t | x)) mx ->
  Forall2 Z.le mn (cmin cb') /\ Forall2 Z.le (cmax cb') mx.
Proof.
  intros cb t cb' mn mx Ht H1 H2 H L1 L2 D1 D2. apply cb_discretized_iff in H; try assumption.
  destruct H as (A & B & _). split.
  - eapply tiles_least; eauto. lia.
  - eapply tiles_greatest; eauto. lia.
Qed.
