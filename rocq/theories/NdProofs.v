(** Facts about row-major arrays: indexing, updating, slice assignment. *)
From Coq Require Import ZArith List Bool Lia.
From Verif Require Import Base NdArray GeomProofs.
Open Scope Z_scope.

Lemma Forall2_length : forall {A B} (P : A -> B -> Prop) l m, Forall2 P l m -> length l = length m.
Proof. induction 1; cbn; auto. Qed.

(** A shape is a list of axis lengths; storage has exactly their product. *)
Definition nd_ok {A} (a : ndarray A) : Prop :=
  Forall (fun n => 0 <= n <= isize_max) (nd_shape a) /\ Z.of_nat (length (nd_data a)) = zprod (nd_shape a).

Lemma in_shape_iff : forall shape idx, in_shape shape idx = true <-> Forall2 (fun n x => 0 <= x < n) shape idx.
Proof.
  induction shape as [|n shape IH]; intros [|x idx]; cbn [in_shape]; split; intro H; try discriminate; try constructor; try inversion H; subst.
  - rewrite !andb_true_iff in H. lia.
  - apply IH. rewrite !andb_true_iff in H. tauto.
  - rewrite !andb_true_iff. split; [lia|]. now apply IH.
Qed.

Lemma zprod_nonneg : forall l, Forall (fun n => 0 <= n) l -> 0 <= zprod l.
Proof. induction l as [|n l IH]; intro H; cbn; [lia|]. inversion H; subst. specialize (IH H3). unfold zprod in IH. nia. Qed.

Lemma offset_range : forall shape idx, Forall2 (fun n x => 0 <= x < n) shape idx ->
  0 <= offset_of shape idx < zprod shape.
Proof.
  induction 1 as [|n x shape idx Hx H IH]; cbn [offset_of]; unfold zprod; cbn; [lia|].
  fold (zprod shape). nia.
Qed.

Lemma offset_inj : forall shape i j, Forall2 (fun n x => 0 <= x < n) shape i -> Forall2 (fun n x => 0 <= x < n) shape j ->
  offset_of shape i = offset_of shape j -> i = j.
Proof.
  induction shape as [|n shape IH]; intros i j Hi Hj E.
  - inversion Hi; inversion Hj; now subst.
  - inversion Hi as [|? x ? i' Hx Hi']; subst. inversion Hj as [|? y ? j' Hy Hj']; subst. cbn [offset_of] in E.
    pose proof (offset_range _ _ Hi'). pose proof (offset_range _ _ Hj').
    assert (x = y) by nia. subst y. f_equal. apply IH; try assumption. lia.
Qed.

Lemma length_zrange : forall n, 0 <= n -> length (zrange n) = Z.to_nat n.
Proof. intros. unfold zrange. now rewrite map_length, seq_length. Qed.
Lemma nth_zrange : forall n k, 0 <= k < n -> nth_error (zrange n) (Z.to_nat k) = Some k.
Proof.
  intros n k H. unfold zrange. rewrite nth_error_map.
  rewrite (nth_error_nth' _ O) by (rewrite seq_length; lia). cbn. rewrite seq_nth by lia. cbn. f_equal. lia.
Qed.

Lemma length_flat_map : forall {A B} (f : A -> list B) l n, (forall x, length (f x) = n) ->
  length (flat_map f l) = (length l * n)%nat.
Proof. intros A B f l n H. induction l; cbn; [reflexivity|]. now rewrite app_length, H, IHl. Qed.
Lemma nth_flat_map : forall {A B} (f : A -> list B) l n i j x, (forall x, length (f x) = n) -> (j < n)%nat ->
  nth_error l i = Some x -> nth_error (flat_map f l) (i * n + j) = nth_error (f x) j.
Proof.
  intros A B f l n i j x H Hj. revert i. induction l as [|a l IH]; intros i E; [destruct i; discriminate|].
  destruct i; cbn in E |- *.
  - injection E as ->. rewrite nth_error_app1; [reflexivity|]. rewrite H. lia.
  - rewrite nth_error_app2 by (rewrite H; lia). rewrite H. replace (n + i * n + j - n)%nat with (i * n + j)%nat by lia. now apply IH.
Qed.

Lemma length_indices : forall shape, Forall (fun n => 0 <= n) shape -> Z.of_nat (length (all_indices shape)) = zprod shape.
Proof.
  induction shape as [|n shape IH]; intro H; [reflexivity|]. inversion H; subst. cbn [all_indices].
  rewrite (length_flat_map _ _ (length (all_indices shape))) by (intro; apply map_length).
  rewrite length_zrange by assumption. rewrite Nat2Z.inj_mul, IH by assumption.
  rewrite Z2Nat.id by assumption. reflexivity.
Qed.
Lemma nth_indices : forall shape idx, Forall2 (fun n x => 0 <= x < n) shape idx ->
  nth_error (all_indices shape) (Z.to_nat (offset_of shape idx)) = Some idx.
Proof.
  induction 1 as [|n x shape idx Hx H IH]; [reflexivity|]. cbn [all_indices offset_of].
  pose proof (offset_range _ _ H) as R. 
  assert (P : Forall (fun n => 0 <= n) shape).
  { clear -H. induction H; constructor; auto. lia. }
  pose proof (length_indices _ P) as L.
  replace (Z.to_nat (x * zprod shape + offset_of shape idx)) with
    (Z.to_nat x * length (all_indices shape) + Z.to_nat (offset_of shape idx))%nat by
    (rewrite Z2Nat.inj_add, Z2Nat.inj_mul by nia; rewrite <- L, Nat2Z.id; reflexivity).
  rewrite (nth_flat_map _ _ _ _ _ x); [|intro; apply map_length|lia|now apply nth_zrange].
  rewrite nth_error_map. unfold cell in *. rewrite IH. reflexivity.
Qed.
Lemma indices_in : forall shape idx, In idx (all_indices shape) -> Forall2 (fun n x => 0 <= x < n) shape idx.
Proof.
  induction shape as [|n shape IH]; cbn [all_indices]; intros idx H.
  - destruct H as [<-|[]]. constructor.
  - apply in_flat_map in H. destruct H as (x & Hx & H). apply in_map_iff in H. destruct H as (y & <- & Hy).
    constructor; [|now apply IH]. unfold zrange in Hx. apply in_map_iff in Hx. destruct Hx as (k & <- & Hk).
    apply in_seq in Hk. lia.
Qed.

Lemma nd_ok_nonneg : forall {A} (a : ndarray A), nd_ok a -> Forall (fun n => 0 <= n) (nd_shape a).
Proof. intros A a [H _]. eapply Forall_impl; [|exact H]. cbn. lia. Qed.

Lemma get_iff : forall {A} (a : ndarray A) idx, nd_ok a ->
  (exists x, nd_get a idx = Ret x) <-> Forall2 (fun n x => 0 <= x < n) (nd_shape a) idx.
Proof.
  intros A a idx [N L]. rewrite <- in_shape_iff. unfold nd_get. destruct (in_shape _ _) eqn:E.
  - split; [reflexivity|]. intros _. apply in_shape_iff in E. pose proof (offset_range _ _ E) as R.
    destruct (nth_error _ _) eqn:F; [eauto|]. apply nth_error_None in F. lia.
  - split; [intros [x H]; discriminate|discriminate].
Qed.
Lemma get_out : forall {A} (a : ndarray A) idx, ~ Forall2 (fun n x => 0 <= x < n) (nd_shape a) idx -> nd_get a idx = Panic.
Proof. intros A a idx H. unfold nd_get. destruct (in_shape _ _) eqn:E; [|reflexivity]. apply in_shape_iff in E. contradiction. Qed.

Lemma upd_length : forall {A} (l : list A) i x, length (upd l i x) = length l.
Proof. induction l; destruct i; cbn; auto. Qed.
Lemma nth_error_upd : forall {A} (l : list A) i j x, (i < length l)%nat ->
  nth_error (upd l i x) j = if Nat.eqb j i then Some x else nth_error l j.
Proof.
  induction l as [|a l IH]; intros i j x H; cbn in H; [lia|]. destruct i, j; cbn; try reflexivity. apply IH. lia.
Qed.

Lemma set_iff : forall {A} (a : ndarray A) idx x,
  (exists a', nd_set a idx x = Ret a') <-> Forall2 (fun n x => 0 <= x < n) (nd_shape a) idx.
Proof.
  intros A a idx x. rewrite <- in_shape_iff. unfold nd_set. destruct (in_shape _ _); split; try reflexivity; eauto.
  - intros [? ?]; discriminate.
  - discriminate.
Qed.
Lemma set_get : forall {A} (a a' : ndarray A) idx x, nd_ok a -> nd_set a idx x = Ret a' ->
  nd_ok a' /\ nd_shape a' = nd_shape a /\ nd_get a' idx = Ret x /\
  (forall j, j <> idx -> nd_get a' j = nd_get a j).
Proof.
  intros A a a' idx x [N L] H. unfold nd_set in H. destruct (in_shape _ _) eqn:E; [|discriminate]. injection H as <-.
  pose proof E as E'. apply in_shape_iff in E. pose proof (offset_range _ _ E) as R.
  split; [|split; [reflexivity|split]].
  - split; cbn; [assumption|]. now rewrite upd_length.
  - unfold nd_get. cbn. rewrite E'. rewrite nth_error_upd by lia. now rewrite Nat.eqb_refl.
  - intros j NE. unfold nd_get. cbn. destruct (in_shape (nd_shape a) j) eqn:F; [|reflexivity].
    apply in_shape_iff in F. pose proof (offset_range _ _ F) as R'. rewrite nth_error_upd by lia.
    destruct (Nat.eqb _ _) eqn:Q; [|reflexivity]. apply Nat.eqb_eq in Q. exfalso. apply NE.
    apply (offset_inj (nd_shape a)); try assumption. lia.
Qed.

Lemma filter_prod_le : forall l m, Forall (fun n => 0 <= n) l -> zprod (filter (fun n => negb (n =? 0)) l) <= m ->
  0 <= m -> Forall (fun n => 0 <= n <= m) l.
Proof.
  intros l m. revert m. induction l as [|n l IH]; intros m P H M; [constructor|]. inversion P; subst. cbn in H.
  destruct (n =? 0) eqn:E; cbn in H.
  - constructor; [lia|]. now apply IH.
  - assert (Q : 1 <= zprod (filter (fun n => negb (n =? 0)) l)).
    { clear -H3. induction H3; cbn; [lia|]. destruct (x =? 0) eqn:E; cbn; [assumption|]. unfold zprod in *. nia. }
    change (n * zprod (filter (fun n => negb (n =? 0)) l) <= m) in H.
    generalize dependent (zprod (filter (fun n => negb (n =? 0)) l)). intros z IH H Q. apply Z.eqb_neq in E.
    assert (1 <= n) by lia. constructor; [nia|]. apply IH; [assumption| |assumption]. nia.
Qed.

Lemma from_shape_vec_ok : forall {A} shape (v : list A) a, Forall (fun n => 0 <= n) shape ->
  nd_from_shape_vec shape v = Ret a -> nd_ok a /\ nd_shape a = shape /\ nd_data a = v.
Proof.
  intros A shape v a P H. unfold nd_from_shape_vec in H. destruct (_ && _) eqn:E; [|discriminate]. injection H as <-.
  rewrite andb_true_iff in E. destruct E as [E1 E2]. split; [|split; reflexivity]. split; cbn.
  - apply filter_prod_le; [assumption|now apply Z.leb_le|]. unfold isize_max. lia.
  - symmetry. now apply Z.eqb_eq.
Qed.

Lemma get_repeat : forall {A} shape (v : A) n idx, nd_ok (mkNd shape (repeat v n)) ->
  Forall2 (fun n x => 0 <= x < n) shape idx -> nd_get (mkNd shape (repeat v n)) idx = Ret v.
Proof.
  intros A shape v n idx K H. destruct (proj2 (get_iff _ idx K) H) as [x E]. rewrite E. f_equal.
  unfold nd_get in E. cbn in E. destruct (in_shape _ _); [|discriminate].
  destruct (nth_error _ _) eqn:F; [|discriminate]. injection E as <-. apply nth_error_In in F. now apply repeat_spec in F.
Qed.

Lemma omap_nth : forall {A B} (f : A -> outcome B) l l' i x, omap f l = Ret l' -> nth_error l i = Some x ->
  exists y, nth_error l' i = Some y /\ f x = Ret y.
Proof.
  induction l as [|a l IH]; intros l' i x H E; cbn in H; [destruct i; discriminate|].
  destruct (f a) eqn:F; cbn in H; try discriminate. destruct (omap f l) eqn:G; cbn in H; try discriminate. injection H as <-.
  destruct i; cbn in E |- *; [injection E as <-; eauto|]. eapply IH; eauto.
Qed.

(** Slice assignment, when the slices are within the arrays and of equal size. *)
Lemma slice_axis_ok : forall len s e, 0 <= s <= e -> e <= len -> slice_axis len s e = Ret (s, e - s).
Proof.
  intros len s e H1 H2. unfold slice_axis.
  replace (s <? 0) with false by (symmetry; apply Z.ltb_ge; lia).
  replace (e <? 0) with false by (symmetry; apply Z.ltb_ge; lia).
  replace (e <? s) with false by (symmetry; apply Z.ltb_ge; lia).
  replace (0 <=? s) with true by (symmetry; apply Z.leb_le; lia).
  replace (0 <=? e) with true by (symmetry; apply Z.leb_le; lia).
  replace (s <=? len) with true by (symmetry; apply Z.leb_le; lia).
  replace (e <=? len) with true by (symmetry; apply Z.leb_le; lia). reflexivity.
Qed.

(** [shift size shape']: copying a box of [size] to position [off]. *)
Lemma slice_assign_part : forall {A} (to from : ndarray A) off sz,
  nd_ok to -> nd_ok from -> Forall2 (fun s n => 0 <= s <= n) sz (nd_shape from) ->
  Forall2 (fun n on => 0 <= snd on /\ fst on + snd on <= n) (nd_shape to) (combine sz off) ->
  length off = length sz ->
  exists r, nd_slice_assign to from off (map2 Z.add sz off) (repeat 0 (length off)) sz = Ret r /\
    nd_ok r /\ nd_shape r = nd_shape to /\
    (forall idx, Forall2 (fun n x => 0 <= x < n) sz idx -> nd_get r (map2 Z.add idx off) = nd_get from idx) /\
    (forall idx, Forall2 (fun n x => 0 <= x < n) (nd_shape to) idx ->
       ~ Forall2 (fun n x => 0 <= x < n) sz (map2 Z.sub idx off) -> nd_get r idx = nd_get to idx).
Proof.
  intros A to from off sz Kt Kf HZ F L.
  assert (Pf : Forall (fun n => 0 <= n) sz) by (clear -HZ; induction HZ; constructor; [lia|assumption]). pose proof (nd_ok_nonneg _ Kt) as Pt.
  assert (T : slice_axes (nd_shape to) off (map2 Z.add sz off) = Ret (combine off sz)).
  { clear -F L Pf. revert off L F. generalize (nd_shape to) as ts. induction sz as [|n fs IH]; intros ts [|o off] L F; cbn in L; try discriminate.
    - destruct ts; reflexivity.
    - inversion F as [|a ? ts' ? Ha F']; subst. inversion Pf; subst. cbn [slice_axes map2 combine]. cbn in Ha.
      rewrite slice_axis_ok by lia. cbn [obind]. rewrite (IH H2 ts' off) by (assumption || lia). cbn [obind].
      replace (n + o - o) with n by lia. reflexivity. }
  assert (S : slice_axes (nd_shape from) (repeat 0 (length off)) sz =
              Ret (map (fun n => (0, n)) sz)).
  { clear -L HZ. revert off L. induction HZ as [|n m fs gs H HZ IH]; intros [|o off] L; cbn in L; try discriminate; [reflexivity|].
    cbn [slice_axes repeat length map]. rewrite slice_axis_ok by lia. cbn [obind]. rewrite IH by lia.
    cbn [obind]. now rewrite Z.sub_0_r. }
  assert (B : broadcastable (combine off sz) (map (fun n => (0, n)) sz) = true).
  { clear -L. revert off L. induction sz as [|n fs IH]; intros [|o off] L; cbn in L; try discriminate; [reflexivity|].
    cbn. rewrite Z.eqb_refl. cbn. apply IH. lia. }
  assert (IN : forall idx, in_slice (combine off sz) idx = true <->
     Forall2 (fun n x => 0 <= x < n) sz (map2 Z.sub idx off) /\ length idx = length off).
  { clear -L. revert off L. induction sz as [|n fs IH]; intros [|o off] L idx; cbn in L; try discriminate.
    - cbn. destruct idx; split; intro H; try discriminate; try tauto. split; constructor. destruct H; discriminate.
    - destruct idx as [|x idx]; cbn [combine in_slice map2]; [split; [discriminate|intros [_ H]; discriminate]|].
      rewrite !andb_true_iff, IH by lia. split.
      + intros ((H1 & H2) & H3 & H4). split; [constructor; [lia|assumption]|cbn; lia].
      + intros (H1 & H2). inversion H1; subst. split; [lia|]. split; [assumption|cbn in H2; lia]. }
  assert (SRC : forall idx, Forall2 (fun n x => 0 <= x < n) sz (map2 Z.sub idx off) -> length idx = length off ->
     source_index (combine off sz) (map (fun n => (0, n)) sz) idx = map2 Z.sub idx off).
  { clear -L. revert off L. induction sz as [|n fs IH]; intros [|o off] L idx H HL; cbn in L; try discriminate.
    - destruct idx; [reflexivity|discriminate].
    - destruct idx as [|x idx]; [discriminate|]. cbn [map2] in H |- *. inversion H; subst. cbn [combine map source_index].
      f_equal; [|apply IH; try assumption; cbn in HL; lia]. destruct (n =? 1) eqn:E; lia. }
  assert (LL : length (nd_shape to) = length off).
  { apply Forall2_length in F. rewrite combine_length in F. lia. }
  unfold nd_slice_assign. rewrite T. cbn [obind]. rewrite S. cbn [obind]. rewrite B. cbn [oassert obind].
  set (f := fun idx : list Z => if in_slice _ idx then _ else _).
  assert (TOT : exists data, omap f (all_indices (nd_shape to)) = Ret data).
  { assert (Q : forall l, (forall x, In x l -> exists y, f x = Ret y) -> exists data, omap f l = Ret data).
    { induction l as [|a l IHl]; intro H; [exists []; reflexivity|]. destruct (H a (or_introl eq_refl)) as [y Ey].
      destruct IHl as [ys Eys]; [intros; apply H; now right|]. exists (y :: ys). cbn. rewrite Ey. cbn. now rewrite Eys. }
    apply Q. intros idx Hi. apply indices_in in Hi. unfold f. destruct (in_slice _ _) eqn:E.
    - apply IN in E. destruct E as [E1 E2]. rewrite SRC by assumption. apply get_iff; [assumption|]. clear -HZ E1. revert E1. generalize (map2 Z.sub idx off). induction HZ as [|n m fs gs H HZ IH]; intros l E; inversion E; subst; constructor; [lia|auto].
    - now apply get_iff. }
  destruct TOT as [data ED]. rewrite ED. cbn [obind]. eexists. split; [reflexivity|].
  assert (LD : Z.of_nat (length data) = zprod (nd_shape to)).
  { rewrite <- (Forall2_length _ _ _ (omap_Forall2 _ _ _ ED)). now apply length_indices. }
  assert (G : forall idx, Forall2 (fun n x => 0 <= x < n) (nd_shape to) idx ->
     nd_get (mkNd (nd_shape to) data) idx = f idx).
  { intros idx H. unfold nd_get. cbn [nd_shape nd_data]. rewrite (proj2 (in_shape_iff _ _) H).
    destruct (omap_nth _ _ _ _ _ ED (nth_indices _ _ H)) as (y & Y1 & Y2). now rewrite Y1. }
  split; [split; [apply Kt|exact LD]|]. split; [reflexivity|]. split.
  - intros idx H. assert (LI : length idx = length off) by (rewrite <- (Forall2_length _ _ _ H); congruence).
    assert (SA : map2 Z.sub (map2 Z.add idx off) off = idx).
    { clear -LI. revert off LI. induction idx; intros [|o off] LI; cbn in LI; try discriminate; [reflexivity|]. cbn. f_equal; [lia|]. apply IHidx. lia. }
    assert (LA : length (map2 Z.add idx off) = length off).
    { clear -LI. revert off LI. induction idx; intros [|o off] LI; cbn in LI |- *; try discriminate; [reflexivity|]. f_equal. apply IHidx. lia. }
    rewrite G.
    + unfold f. replace (in_slice _ _) with true by (symmetry; apply IN; rewrite SA; auto).
      rewrite SRC by (rewrite ?SA; assumption). now rewrite SA.
    + clear -H F LI. revert F H LI. generalize (nd_shape to) as ts. revert off. revert sz. 
      induction idx as [|x idx IH]; intros fs [|o off] ts F H LI; cbn in LI; try discriminate.
      * inversion H; subst. inversion F; subst. constructor.
      * inversion H; subst. cbn [combine] in F. inversion F; subst. cbn [map2]. cbn [fst snd] in *. constructor; [lia|]. eapply IH; eauto.
  - intros idx H N. rewrite G by assumption. unfold f. destruct (in_slice _ _) eqn:E; [|reflexivity].
    apply IN in E. tauto.
Qed.
Lemma slice_assign_ok : forall {A} (to from : ndarray A) off,
  nd_ok to -> nd_ok from ->
  Forall2 (fun n on => 0 <= snd on /\ fst on + snd on <= n) (nd_shape to) (combine (nd_shape from) off) ->
  length off = length (nd_shape from) ->
  exists r, nd_slice_assign to from off (map2 Z.add (nd_shape from) off) (repeat 0 (length off)) (nd_shape from) = Ret r /\
    nd_ok r /\ nd_shape r = nd_shape to /\
    (forall idx, Forall2 (fun n x => 0 <= x < n) (nd_shape from) idx -> nd_get r (map2 Z.add idx off) = nd_get from idx) /\
    (forall idx, Forall2 (fun n x => 0 <= x < n) (nd_shape to) idx ->
       ~ Forall2 (fun n x => 0 <= x < n) (nd_shape from) (map2 Z.sub idx off) -> nd_get r idx = nd_get to idx).
Proof.
  intros A to from off Kt Kf F L. apply (slice_assign_part to from off (nd_shape from)); try assumption.
  pose proof (nd_ok_nonneg _ Kf) as P. clear -P. induction P; constructor; [lia|assumption].
Qed.

(** More is asked of the source than it has. *)
Lemma slice_axis_over : forall len s e, 0 <= s <= e -> len < e -> slice_axis len s e = Panic.
Proof.
  intros len s e H1 H2. unfold slice_axis.
  replace (s <? 0) with false by (symmetry; apply Z.ltb_ge; lia).
  replace (e <? 0) with false by (symmetry; apply Z.ltb_ge; lia).
  replace (e <? s) with false by (symmetry; apply Z.ltb_ge; lia).
  replace (0 <=? s) with true by (symmetry; apply Z.leb_le; lia).
  replace (0 <=? e) with true by (symmetry; apply Z.leb_le; lia).
  replace (e <=? len) with false by (symmetry; apply Z.leb_gt; lia). rewrite andb_false_r. reflexivity.
Qed.
Lemma slice_assign_over : forall {A} (to from : ndarray A) off sz,
  Forall (fun s => 0 <= s) sz -> length sz = length (nd_shape from) -> ~ Forall2 Z.le sz (nd_shape from) ->
  Forall2 (fun n on => 0 <= snd on /\ fst on + snd on <= n) (nd_shape to) (combine sz off) ->
  length off = length sz ->
  nd_slice_assign to from off (map2 Z.add sz off) (repeat 0 (length off)) sz = Panic.
Proof.
  intros A to from off sz P LZ N F L. unfold nd_slice_assign.
  assert (T : exists tsl, slice_axes (nd_shape to) off (map2 Z.add sz off) = Ret tsl).
  { clear -F L P. revert off L F. generalize (nd_shape to) as ts. induction P as [|n fs Hn P IH]; intros ts [|o off] L F; cbn in L; try discriminate.
    - destruct ts; eexists; reflexivity.
    - inversion F as [|a ? ts' ? Ha F']; subst. cbn [slice_axes map2]. cbn in Ha.
      rewrite slice_axis_ok by lia. cbn [obind]. destruct (IH ts' off) as [l ->]; [lia|assumption|]. eexists. reflexivity. }
  destruct T as [tsl ->]. cbn [obind].
  assert (S : slice_axes (nd_shape from) (repeat 0 (length off)) sz = Panic).
  { rewrite L. clear -P LZ N. revert LZ N. generalize (nd_shape from) as fs. induction P as [|n sz Hn P IH]; intros [|m fs] LZ N; cbn in LZ; try discriminate.
    - exfalso. apply N. constructor.
    - cbn [slice_axes repeat length]. destruct (Z_le_gt_dec n m) as [Q|Q].
      + rewrite slice_axis_ok by lia. cbn [obind]. rewrite IH; [reflexivity|lia|]. intro K. apply N. now constructor.
      + rewrite slice_axis_over by lia. reflexivity. }
  now rewrite S.
Qed.
