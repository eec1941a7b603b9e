(** Proofs about grid maps: reading, writing, creation, expansion. *)
From Coq Require Import ZArith List Bool Reals Lra Lia Psatz.
From Flocq Require Import Core BinarySingleNaN.
From Verif Require Import Base F32 FloatFacts RoundError Arith Geom NdArray GridMap Spec SpecMap ConverterProofs GeomProofs BoundsProofs NdProofs.
Open Scope Z_scope.

(** ** Reading and writing *)
Lemma ndindex_id : forall c n, Forall2 (fun n x => 0 <= x < n) n c -> Forall (fun n => 0 <= n <= isize_max) n ->
  to_ndindex c = c.
Proof.
  intros c n H N. unfold to_ndindex. revert N. induction H as [|a x n c H _ IH]; intro N; [reflexivity|].
  inversion N; subst. cbn. f_equal; [|now apply IH]. unfold usize_of_isize, usize_mod. apply Z.mod_small.
  unfold isize_max in *. lia.
Qed.
Lemma ndindex_range : forall c n, cells_in_isize c -> Forall (fun n => 0 <= n <= isize_max) n ->
  in_range n (to_ndindex c) <-> in_range n c.
Proof.
  intros c n Hc Hn. unfold in_range. split.
  - unfold to_ndindex. revert c Hc. induction Hn as [|a n Ha Hn IH]; intros [|x c] Hc H; inversion H; subst; constructor.
    + inversion Hc; subst. unfold usize_of_isize, usize_mod, isize_min, isize_max in *.
      destruct (Z_lt_le_dec x 0) as [L|L].
      * exfalso. rewrite <- (Z.mod_add x 1) in H3 by lia. rewrite Z.mod_small in H3 by lia. lia.
      * rewrite Z.mod_small in H3 by lia. lia.
    + apply IH; [now inversion Hc|assumption].
  - intro H. now rewrite (ndindex_id c n H Hn).
Qed.
Lemma range_isize : forall n c, Forall (fun n => 0 <= n <= isize_max) n -> in_range n c -> cells_in_isize c.
Proof.
  intros n c Hn H. unfold in_range in H. revert Hn. induction H; intro Hn; constructor; inversion Hn; subst.
  - unfold isize_min, isize_max in *. lia.
  - now apply IHForall2.
Qed.

Section Elt.
Context {A : Type}.
Implicit Types g : grid_map A.

Lemma gm_get_in : forall g c, storage_ok (gm_data g) -> in_range (nd_shape (gm_data g)) c ->
  gm_get g c = nd_get (gm_data g) c.
Proof. intros g c [H _] R. unfold gm_get. now rewrite (ndindex_id c _ R H). Qed.
Lemma gm_get_iff : forall g c, storage_ok (gm_data g) -> cells_in_isize c ->
  (in_range (nd_shape (gm_data g)) c -> exists v, gm_get g c = Ret v) /\
  (~ in_range (nd_shape (gm_data g)) c -> gm_get g c = Panic).
Proof.
  intros g c H Hc. pose proof (ndindex_range c _ Hc (proj1 H)) as E. unfold gm_get. split; intro R.
  - apply get_iff; [exact H|]. now apply E.
  - apply get_out. intro Q. apply R. now apply E.
Qed.
Lemma gm_get_range : forall g c v, storage_ok (gm_data g) -> cells_in_isize c -> gm_get g c = Ret v ->
  in_range (nd_shape (gm_data g)) c.
Proof.
  intros g c v H Hc E. apply (ndindex_range c _ Hc (proj1 H)). apply (get_iff (gm_data g) _ H). now exists v.
Qed.
Lemma gm_set_iff : forall g c v, storage_ok (gm_data g) -> cells_in_isize c ->
  (in_range (nd_shape (gm_data g)) c -> exists g', gm_set g c v = Ret g') /\
  (~ in_range (nd_shape (gm_data g)) c -> gm_set g c v = Panic).
Proof.
  intros g c v H Hc. pose proof (ndindex_range c _ Hc (proj1 H)) as E. unfold gm_set. split; intro R.
  - apply E in R. destruct (proj2 (set_iff (gm_data g) (to_ndindex c) v) R) as [a ->]. cbn. eauto.
  - destruct (nd_set _ _ _) as [a| |] eqn:F; [|reflexivity|].
    + exfalso. apply R, E. apply (set_iff (gm_data g) (to_ndindex c) v). eauto.
    + unfold nd_set in F. destruct (in_shape _ _); discriminate.
Qed.
Lemma gm_set_spec : forall g c v g', storage_ok (gm_data g) -> cells_in_isize c -> gm_set g c v = Ret g' ->
  storage_ok (gm_data g') /\ nd_shape (gm_data g') = nd_shape (gm_data g) /\
  gm_get g' c = Ret v /\
  (forall c', cells_in_isize c' -> c' <> c -> gm_get g' c' = gm_get g c') /\
  gm_bounds g' = gm_bounds g /\ gm_resolution g' = gm_resolution g /\ gm_tile_size g' = gm_tile_size g /\
  gm_track_changes g' = gm_track_changes g /\ gm_changed_cells g' = gm_changed_cells g.
Proof.
  intros g c v g' H Hc E. unfold gm_set in E. destruct (nd_set _ _ _) as [a| |] eqn:F; cbn in E; try discriminate.
  injection E as <-. cbn. destruct (set_get _ _ _ _ H F) as (K & S & G & O). unfold gm_get. cbn.
  split; [exact K|]. split; [assumption|]. split; [assumption|]. split; [|repeat split].
  intros c' Hc' N.
  assert (R : in_range (nd_shape (gm_data g)) c).
  { apply (ndindex_range c _ Hc (proj1 H)). apply (set_iff (gm_data g) _ v). eauto. }
  destruct (list_eq_dec Z.eq_dec (to_ndindex c') (to_ndindex c)) as [Q|Q]; [|now apply O]. exfalso. apply N.
  assert (R' : in_range (nd_shape (gm_data g)) c').
  { apply (ndindex_range c' _ Hc' (proj1 H)). rewrite Q. now apply (ndindex_range c _ Hc (proj1 H)). }
  rewrite <- (ndindex_id c _ R (proj1 H)), <- (ndindex_id c' _ R' (proj1 H)). now symmetry.
Qed.

(** ** Creation *)
Lemma isize_product_small : forall l, Forall (fun n => 0 <= n <= 2 ^ 20) l -> (length l <= 3)%nat ->
  isize_product l = Ret (zprod l) /\ 0 <= zprod l <= 2 ^ 60.
Proof.
  intros l F L. change (2 ^ 20) with 1048576 in F. change (2 ^ 60) with 1152921504606846976.
  assert (I : forall z, 0 <= z <= 1152921504606846976 -> isz z = Ret z).
  { intros z H. apply isz_ok. unfold isize_min, isize_max. lia. }
  assert (M1 : forall a, 0 <= a <= 1048576 -> isz (1 * a) = Ret a).
  { intros a H. rewrite Z.mul_1_l. apply I. lia. }
  unfold isize_product.
  destruct l as [|a [|b [|c [|]]]]; cbn in L; try lia; unfold zprod;
  repeat match goal with H : Forall _ (_ :: _) |- _ => inversion H; clear H; subst end; cbn [ofold fold_right].
  - split; [reflexivity|lia].
  - rewrite M1 by assumption. cbn [obind]. split; [f_equal; lia|lia].
  - assert (0 <= a * b <= 1099511627776) by nia.
    rewrite M1 by assumption. cbn [obind]. rewrite I by lia. cbn [obind]. split; [f_equal; lia|lia].
  - assert (0 <= a * b <= 1099511627776) by nia. assert (0 <= a * b * c <= 1152921504606846976) by nia.
    rewrite M1 by assumption. cbn [obind]. rewrite I by lia. cbn [obind]. rewrite I by lia. cbn [obind].
    split; [f_equal; lia|lia].
Qed.

Lemma zprod_filter_le : forall l m, Forall (fun n => 0 <= n <= m) l -> 1 <= m ->
  zprod (filter (fun n => negb (n =? 0)) l) <= m ^ Z.of_nat (length l).
Proof.
  induction l as [|n l IH]; intros m H M; [cbn; lia|]. inversion H; subst. specialize (IH m H3 M).
  assert (P : 0 <= zprod (filter (fun n => negb (n =? 0)) l)).
  { apply zprod_nonneg. apply Forall_forall. intros x Hx. apply filter_In in Hx. rewrite Forall_forall in H3.
    destruct Hx as [Hx _]. specialize (H3 x Hx). lia. }
  cbn [length]. rewrite Nat2Z.inj_succ, Z.pow_succ_r by lia. cbn [filter]. destruct (n =? 0); cbn [negb].
  - nia.
  - change (n * zprod (filter (fun n => negb (n =? 0)) l) <= m * m ^ Z.of_nat (length l)). nia.
Qed.

Lemma ndindex_nonneg : forall c, Forall (fun n => 0 <= n) (to_ndindex c).
Proof.
  intro c. apply Forall_forall. intros x H. apply in_map_iff in H. destruct H as (y & <- & _).
  unfold usize_of_isize, usize_mod. apply Z.mod_pos_bound. lia.
Qed.

Lemma new_storage : forall (r : f32) b (v : A) a, ndarray_with_bounds r b v = Ret a ->
  cells_in_isize (cell_from_point F32A (bmax b) (bmin b) r) ->
  storage_ok a /\ nd_shape a = cell_from_point F32A (bmax b) (bmin b) r /\
  (forall c, in_range (nd_shape a) c -> nd_get a c = Ret v).
Proof.
  intros r b v a H P. unfold ndarray_with_bounds in H.
  set (s := cell_from_point F32A (bmax b) (bmin b) r) in *. clearbody s.
  destruct (isize_product s) as [p| |]; cbn [obind] in H; try discriminate.
  destruct (0 <=? p); cbn [oassert obind] in H; [|discriminate].
  pose proof H as H'. apply from_shape_vec_ok in H; [|apply ndindex_nonneg]. destruct H as (K & S & D).
  assert (E : to_ndindex s = s).
  { destruct K as [K _]. rewrite S in K. clear -P K. unfold to_ndindex in *.
    induction P as [|x s Hx P IH]; [reflexivity|]. cbn in K. inversion K; subst. cbn. f_equal; [|now apply IH].
    unfold usize_of_isize, usize_mod, isize_min, isize_max in *. destruct (Z_lt_le_dec x 0).
    - exfalso. rewrite <- (Z.mod_add x 1) in H1 by lia. rewrite Z.mod_small in H1 by lia. lia.
    - now rewrite Z.mod_small by lia. }
  rewrite E in S. split; [exact K|]. split; [assumption|]. intros c R. destruct a as [sh da]. cbn in S, D. subst. now apply get_repeat.
Qed.

Lemma ccp_in_isize : forall p o r : f32, isize_min <= cell_coord_from_point_coord F32A p o r <= isize_max.
Proof. intros. unfold cell_coord_from_point_coord. apply idx_range. Qed.
Lemma cfp_in_isize : forall (p o : point) r, cells_in_isize (cell_from_point F32A p o r).
Proof.
  intros p o r. unfold cell_from_point. revert o. induction p as [|x p IH]; intros [|y o]; cbn; constructor.
  - apply ccp_in_isize.
  - apply IH.
Qed.

(** C22 *)
Lemma gm_new_storage : forall r b t (v : A) g, gm_new r b t v = Ret g ->
  storage_ok (gm_data g) /\ nd_shape (gm_data g) = cell_from_point F32A (bmax b) (bmin b) r /\
  (forall c, in_range (nd_shape (gm_data g)) c -> gm_get g c = Ret v) /\
  gm_bounds g = b /\ gm_resolution g = r /\ gm_tile_size g = t /\
  gm_track_changes g = false /\ gm_changed_cells g = [].
Proof.
  intros r b t v g H. unfold gm_new in H. destruct (ndarray_with_bounds r b v) as [a| |] eqn:E; cbn in H; try discriminate.
  injection H as <-. cbn. destruct (new_storage _ _ _ _ E (cfp_in_isize _ _ _)) as (K & S & G).
  split; [assumption|]. split; [assumption|]. split; [|repeat split].
  intros c R. rewrite gm_get_in by assumption. now apply G.
Qed.

(** When a new map can be made at all. *)
Lemma isize_product_cases : forall l, isize_product l = Panic \/ exists p, isize_product l = Ret p.
Proof.
  intro l. unfold isize_product. generalize 1. induction l as [|x l IH]; intro a; cbn [ofold]; [right; eauto|].
  unfold isz. destruct (in_isize (a * x)); cbn [obind]; [apply IH|now left].
Qed.
Lemma nonzero_product : forall l, fold_right (fun n a => if n =? 0 then a else n * a) 1 l = zprod (filter (fun n => negb (n =? 0)) l).
Proof. induction l as [|n l IH]; [reflexivity|]. cbn [fold_right filter]. destruct (n =? 0); cbn [negb]; [exact IH|]. change (zprod (n :: ?l)) with (n * zprod l). now rewrite IH. Qed.
Lemma isize_product_fits : forall l a, Forall (fun n => 0 <= n) l -> 0 <= a -> a * zprod (filter (fun n => negb (n =? 0)) l) <= isize_max ->
  ofold (fun acc x => isz (acc * x)) a l = Ret (a * zprod l) /\ 0 <= a * zprod l.
Proof.
  induction l as [|n l IH]; intros a F Pa H.
  - cbn. split; [f_equal; unfold zprod; cbn; lia|unfold zprod; cbn; lia].
  - inversion F as [|? ? Fn F']; subst. cbn [ofold filter] in *. change (zprod (n :: l)) with (n * zprod l).
    assert (P : 1 <= zprod (filter (fun n => negb (n =? 0)) l)).
    { clear -F'. induction F' as [|m l Hm F' IH]; [unfold zprod; cbn; lia|]. cbn [filter]. destruct (m =? 0) eqn:E; cbn [negb]; [exact IH|]. apply Z.eqb_neq in E. change (1 <= m * zprod (filter (fun n => negb (n =? 0)) l)). nia. }
    assert (Q : 0 <= a * n <= isize_max /\ a * n * zprod (filter (fun n => negb (n =? 0)) l) <= isize_max).
    { destruct (n =? 0) eqn:E; cbn [negb] in H.
      - apply Z.eqb_eq in E. subst n. rewrite Z.mul_0_r. unfold isize_max. lia.
      - change (zprod (n :: filter (fun n => negb (n =? 0)) l)) with (n * zprod (filter (fun n => negb (n =? 0)) l)) in H. nia. }
    rewrite isz_ok by (unfold isize_min in *; lia). cbn [obind]. destruct (IH (a * n) F' ltac:(lia) (proj2 Q)) as [I1 I2].
    rewrite I1. replace (a * (n * zprod l)) with (a * n * zprod l) by ring. split; [reflexivity|exact I2].
Qed.
Lemma ndindex_nonneg_id : forall s, Forall (fun n => 0 <= n) s -> cells_in_isize s -> to_ndindex s = s.
Proof.
  intros s N IS. unfold to_ndindex. induction N as [|x l Hx N IH]; [reflexivity|]. inversion IS; subst. cbn. f_equal; [|now apply IH].
  unfold usize_of_isize, usize_mod, isize_max in *. apply Z.mod_small. lia.
Qed.
Lemma gm_new_iff : forall r b t (v : A), let s := cell_from_point F32A (bmax b) (bmin b) r in
  let fits := Forall (fun n => 0 <= n) s /\ fold_right (fun n a => if n =? 0 then a else n * a) 1 s <= isize_max in
  (fits -> exists g, gm_new r b t v = Ret g) /\ (~ fits -> gm_new r b t v = Panic).
Proof.
  intros r b t v s fits. unfold fits. rewrite nonzero_product. assert (IS := cfp_in_isize (bmax b) (bmin b) r). fold s in IS. split.
  - intros [N H]. destruct (isize_product_fits s 1 N ltac:(lia) ltac:(lia)) as [E P].
    pose proof (ndindex_nonneg_id s N IS) as I.
    unfold gm_new, ndarray_with_bounds. fold s. unfold isize_product. rewrite E. cbn [obind]. rewrite Z.mul_1_l in *.
    replace (0 <=? zprod s) with true by (symmetry; apply Z.leb_le; lia). cbn [oassert obind]. rewrite I.
    unfold nd_from_shape_vec. rewrite repeat_length, Z2Nat.id, Z.eqb_refl by lia.
    replace (_ <=? isize_max) with true by (symmetry; now apply Z.leb_le). cbn. eauto.
  - intro H. unfold gm_new. destruct (ndarray_with_bounds r b v) as [a| |] eqn:E; cbn [obind]; [|reflexivity|].
    + exfalso. apply H. destruct (new_storage _ _ _ _ E IS) as ([K _] & S & _). fold s in S. rewrite S in K. split; [eapply Forall_impl; [|exact K]; cbn; intros; lia|].
      unfold ndarray_with_bounds in E. fold s in E. destruct (isize_product s) as [p| |]; try discriminate E. cbn [obind] in E. destruct (0 <=? p); [|discriminate E]. cbn [oassert obind] in E.
      rewrite (ndindex_nonneg_id s) in E; [|eapply Forall_impl; [|exact K]; cbn; intros; lia|exact IS].
      unfold nd_from_shape_vec in E. destruct (zprod (filter _ s) <=? isize_max) eqn:L; [now apply Z.leb_le|discriminate E].
    + exfalso. unfold ndarray_with_bounds in E. fold s in E. destruct (isize_product_cases s) as [Q|[p Q]]; rewrite Q in E; [discriminate E|]. cbn [obind] in E.
      destruct (0 <=? p); [|discriminate E]. cbn [oassert obind] in E. unfold nd_from_shape_vec in E. destruct (_ && _); discriminate E.
Qed.

Lemma nwb_ok : forall d (r : f32) cb (v : A), (d <= 3)%nat -> res_ok r -> cb_ordered d cb -> cb_near (2 ^ 19) cb ->
  exists a, ndarray_with_bounds r (bounds_from_cell_bounds cb r) v = Ret a /\
    storage_ok a /\ nd_shape a = map2 Z.sub (cmax cb) (cmin cb) /\
    (forall c, in_range (nd_shape a) c -> nd_get a c = Ret v).
Proof.
  intros d r cb v D HR (L1 & L2 & O) (N1 & N2).
  assert (W : forall l, Forall (fun x => Z.abs x <= 2 ^ 19) l -> Forall (fun x => Z.abs x <= 2 ^ 20) l).
  { intros l H. eapply Forall_impl; [|exact H]. cbn. lia. }
  pose proof (span_cells d cb r HR L1 L2 (W _ N1) (W _ N2)) as SP. cbv zeta in SP.
  set (b := bounds_from_cell_bounds cb r) in *. set (s := map2 Z.sub (cmax cb) (cmin cb)) in *.
  assert (R : Forall (fun n => 0 <= n <= 2 ^ 20) s).
  { unfold s. clear -O N1 N2. revert N1 N2. induction O as [|x y l m H O IH]; intros N1 N2; cbn; constructor.
    - inversion N1; inversion N2; subst. lia.
    - inversion N1; inversion N2; subst. auto. }
  assert (LS : (length s <= 3)%nat) by (unfold s; rewrite map2_length by congruence; lia).
  destruct (isize_product_small s R LS) as [E B].
  assert (I : to_ndindex s = s).
  { unfold to_ndindex. clear -R. induction R as [|x l H R IH]; [reflexivity|]. cbn. f_equal; [|assumption].
    unfold usize_of_isize, usize_mod. apply Z.mod_small. lia. }
  assert (X : exists a, ndarray_with_bounds r b v = Ret a).
  { unfold ndarray_with_bounds. rewrite SP, E. cbn [obind].
    replace (0 <=? zprod s) with true by (symmetry; apply Z.leb_le; lia). cbn [oassert obind]. rewrite I.
    unfold nd_from_shape_vec. rewrite repeat_length, Z2Nat.id, Z.eqb_refl by lia.
    assert (Q : zprod (filter (fun n => negb (n =? 0)) s) <= isize_max).
    { eapply Z.le_trans; [apply (zprod_filter_le s (2 ^ 20)); [assumption|lia]|].
      apply Z.le_trans with ((2 ^ 20) ^ 3); [apply Z.pow_le_mono_r; lia|]. vm_compute. discriminate. }
    replace (_ <=? isize_max) with true by (symmetry; now apply Z.leb_le). cbn. eauto. }
  destruct X as [a Ea]. exists a. split; [assumption|].
  destruct (new_storage _ _ _ _ Ea (cfp_in_isize _ _ _)) as (K & S & G). rewrite SP in S. auto.
Qed.

Lemma new_aligned : forall d r t cb (v : A), (d <= 3)%nat -> res_ok r -> cb_ordered d cb -> cb_near (2 ^ 19) cb ->
  exists g, gm_new r (bounds_from_cell_bounds cb r) t v = Ret g /\
    nd_shape (gm_data g) = map2 Z.sub (cmax cb) (cmin cb) /\ storage_ok (gm_data g) /\
    (forall c, in_range (nd_shape (gm_data g)) c -> gm_get g c = Ret v).
Proof.
  intros d r t cb v D HR O N. destruct (nwb_ok d r cb v D HR O N) as (a & E & K & S & G).
  exists (mkGrid a r (bounds_from_cell_bounds cb r) t false []). split; [|split; [|split]]; try assumption.
  - unfold gm_new. now rewrite E.
  - intros c R. rewrite gm_get_in by assumption. now apply G.
Qed.
End Elt.
