(** When maps made for arbitrary boxes can be expanded, and what is kept. *)
From Coq Require Import ZArith List Bool Reals Lra Lia Psatz.
From Flocq Require Import Core BinarySingleNaN.
From Verif Require Import Base F32 FloatFacts RoundError Arith Geom NdArray GridMap Spec SpecMap ConverterProofs GeomProofs BoundsProofs NdProofs GridProofs ExpandProofs UnalignedProofs MapProofs.
Open Scope Z_scope.

(** ** Making one *)
Lemma span_axis : forall r lo hi : f32, res_ok r -> within_cells (2 ^ 18) r lo -> within_cells (2 ^ 18) r hi -> fle lo hi ->
  0 <= cell_coord_from_point_coord F32A hi lo r <= 2 ^ 20.
Proof.
  intros r lo hi HR [Fl Wl] [Fh Wh] L. pose proof (res_ok_pos r HR) as P. pose proof (fle_real _ _ Fl Fh L) as Q.
  assert (D : (Rabs (B2R hi - B2R lo) <= 524288 * B2R r)%R).
  { unfold real in *. change (IZR (2 ^ 18)) with 262144%R in *. apply Rabs_le_inv in Wl, Wh. rewrite Rabs_pos_eq by lra. lra. }
  pose proof (nearest1 hi lo r HR Fh Fl) as N. cbv zeta in N. unfold real in *. 
  assert (D2 : (Rabs (B2R hi - B2R lo) <= IZR (2 ^ 26) * B2R r)%R).
  { eapply Rle_trans; [exact D|]. apply Rmult_le_compat_r; [lra|]. change (2^26) with 67108864. lra. }
  specialize (N D2). change (bpow radix2 (-22)) with (/ 4194304)%R in N.
  set (c := cell_coord_from_point_coord F32A hi lo r) in *.
  assert (E : (/ 4194304 * Rabs (B2R hi - B2R lo) <= / 8 * B2R r)%R) by nra.
  rewrite (Rabs_pos_eq (B2R hi - B2R lo)) in * by lra.
  assert (B : (Rabs (IZR c * B2R r + B2R lo - B2R hi) <= 5 / 8 * B2R r)%R) by lra. apply Rabs_le_inv in B. split.
  - assert (K : (- (5 / 8) <= IZR c)%R) by (apply Rmult_le_reg_r with (B2R r); [assumption|lra]).
    assert (J : (-1 < IZR c)%R) by lra. apply lt_IZR in J. lia.
  - assert (K : (IZR c <= 524288 + 5 / 8)%R) by (apply Rmult_le_reg_r with (B2R r); [assumption|lra]).
    assert (J : (IZR c < IZR 524289)%R) by lra. apply lt_IZR in J. change (2 ^ 20) with 1048576. lia.
Qed.

Lemma new_any : forall {A} d r t b (v : A), map_range d r t -> request_ok d r b -> exists g, gm_new r b t v = Ret g.
Proof.
  intros A d r t b v (Hd & HR & Ht) ((L1 & L2 & O) & N1 & N2).
  set (s := cell_from_point F32A (bmax b) (bmin b) r).
  assert (R : Forall (fun n => 0 <= n <= 2 ^ 20) s).
  { unfold s, cell_from_point. clear -HR O N1 N2. revert N1 N2. induction O as [|x y l m H O IH]; intros N1 N2; cbn [map2]; constructor; inversion N1; inversion N2; subst; auto.
    now apply span_axis. }
  assert (LS : (length s <= 3)%nat) by (unfold s; rewrite cfp_length by congruence; lia).
  destruct (isize_product_small s R LS) as [E B].
  assert (I : to_ndindex s = s).
  { unfold to_ndindex. clear -R. induction R as [|x l H R IH]; [reflexivity|]. cbn. f_equal; [|assumption].
    unfold usize_of_isize, usize_mod. apply Z.mod_small. lia. }
  unfold gm_new, ndarray_with_bounds. fold s. rewrite E. cbn [obind].
  replace (0 <=? zprod s) with true by (symmetry; apply Z.leb_le; lia). cbn [oassert obind]. rewrite I.
  unfold nd_from_shape_vec. rewrite repeat_length, Z2Nat.id, Z.eqb_refl by lia.
  assert (Q : zprod (filter (fun n => negb (n =? 0)) s) <= isize_max).
  { eapply Z.le_trans; [apply (zprod_filter_le s (2 ^ 20)); [assumption|lia]|].
    apply Z.le_trans with ((2 ^ 20) ^ 3); [apply Z.pow_le_mono_r; lia|]. vm_compute. discriminate. }
  replace (_ <=? isize_max) with true by (symmetry; now apply Z.leb_le). cbn. eauto.
Qed.

(** ** The requested cells *)
Lemma disc_finite : forall d r b db, res_ok r -> request_ok d r b -> bounds_discretized b r true = Ret db ->
  Forall finite (bmin db) /\ Forall finite (bmax db).
Proof.
  intros d r b db HR (O & N1 & N2) E. pose proof (res_ok_pos r HR) as P.
  destruct (bounds_discretized_spec d b r true (proj1 HR) P O) as (db' & E' & O' & S & M1 & M2).
  rewrite E in E'. injection E' as <-. destruct S as [S1 S2]. pose proof HR as [Fr Hr]. unfold real in Hr.
  assert (small : forall x, (Rabs x <= 262145 * B2R r)%R -> (Rabs (rnd x) < bpow radix2 128)%R).
  { intros x Hx. apply rnd_abs_lt_128. eapply Rle_trans; [exact Hx|].
    change 127 with (100 + 27). rewrite bpow_plus. change (bpow radix2 27) with 134217728%R. pose proof (bpow_gt_0 radix2 100). nra. }
  split; apply Forall_forall; intros x Hx.
  - assert (Q : exists v, within_cells (2 ^ 18) r v /\ fle (fsub v r) x /\ fle x v).
    { clear -N1 M1 S1 Hx. revert N1 S1 Hx. induction M1 as [|v w l l' H M IH]; intros N1 S1 Hx; [destruct Hx|].
      inversion N1; inversion S1; subst. destruct Hx as [->|Hx]; [exists v; auto|apply IH; auto]. }
    destruct Q as (v & [Fv Wv] & Q1 & Q2). unfold real in Wv. change (IZR (2 ^ 18)) with 262144%R in Wv.
    destruct (fsub_fin v r Fv Fr) as [Fs Es].
    { apply small. eapply Rle_trans; [apply Rabs_triang|]. rewrite Rabs_Ropp, (Rabs_pos_eq (B2R r)) by lra. lra. }
    exact (between_finite _ _ _ Fs Fv Q1 Q2).
  - assert (Q : exists v, within_cells (2 ^ 18) r v /\ fle v x /\ fle x (fadd v r)).
    { clear -N2 M2 S2 Hx. revert N2 S2 Hx. induction M2 as [|v w l l' H M IH]; intros N1 S1 Hx; [destruct Hx|].
      inversion N1; inversion S1; subst. destruct Hx as [->|Hx]; [exists v; auto|apply IH; auto]. }
    destruct Q as (v & [Fv Wv] & Q1 & Q2). unfold real in Wv. change (IZR (2 ^ 18)) with 262144%R in Wv.
    destruct (fadd_fin v r Fv Fr) as [Fs Es].
    { apply small. eapply Rle_trans; [apply Rabs_triang|]. rewrite (Rabs_pos_eq (B2R r)) by lra. lra. }
    exact (between_finite _ _ _ Fv Fs Q1 Q2).
Qed.

Section Built.
Context {A : Type}.
Implicit Types g : grid_map A.

Lemma new_for_box : forall d r t b (v : A), map_range d r t -> request_ok d r b ->
  exists g, gm_new r b t v = Ret g /\ built r t b g.
Proof. intros d r t b v M RB. destruct (new_any d r t b v M RB) as [g E]. exists g. split; [assumption|]. now apply (built_new r t b v). Qed.

(** Exactly when the map can be expanded. *)
Lemma built_expandable : forall d r t b g b' (v : A) db, map_range d r t -> request_ok d r b -> built r t b g -> request_ok d r b' ->
  bounds_discretized b' r true = Ret db ->
  let cb := cells_between r b in
  ((exists g', gm_expand_bounds g b' v = Ret g') <->
   is_zero_box b \/ (tile_aligned t cb /\ sub_cells (cells_between r db) cb) \/
   Forall2 Z.le (map2 Z.sub (cmax cb) (cmin cb)) (nd_shape (gm_data g))) /\
  ((forall g', gm_expand_bounds g b' v <> Ret g') -> gm_expand_bounds g b' v = Panic).
Proof.
  intros d r t b g b' v db M RB B RQ Edb cb. pose proof M as (Hd & HR & Ht).
  destruct (request_finite d r b RB) as [F1 F2]. destruct (disc_finite d r b' db HR RQ Edb) as [F3 F4].
  unfold cb. clear cb. rewrite !cells_map by assumption.
  destruct (box_near d r b HR RB) as [Wo _].
  destruct (expand_over d r t b g b' v db M RB (built_over d r t b g B) RQ Edb) as (cb' & Oc & U0 & U & C1 & C2 & C3).
  set (cb := mkCB (map (wc r) (bmin b)) (map (wc r) (bmax b))) in *. set (rq := mkCB (map (wc r) (bmin db)) (map (wc r) (bmax db))) in *.
  destruct (cb_dec cb' cb) as [Q|Q].
  - split; [|intro N; destruct (N g (C1 Q))]. split; [|intros _; exists g; now apply C1].
    intros _. destruct (zero_box_dec b) as [Z0|Z0]; [now left|right; left].
    destruct (U Z0) as (T1 & T2 & _). destruct (below_le _ _ _ T1) as [B1 D1]. destruct (above_le _ _ _ T2) as [B2 D2].
    rewrite Q in B1, B2, D1, D2. split; [split; assumption|].
    destruct Wo as (w1 & w2 & _). 
    assert (R1 : length (cmin rq) = d /\ length (cmax rq) = d).
    { destruct (disc_near d r b' db HR RQ Edb) as ((l1 & l2 & _) & _). unfold rq. cbn [cmin cmax]. now rewrite !map_length. }
    destruct (map2_le (cmin cb) (cmin rq)) as (A1 & A2 & _ & _); [destruct R1; congruence|].
    destruct (map2_le (cmax cb) (cmax rq)) as (_ & _ & A3 & A4); [destruct R1; congruence|].
    split; eapply Zle_trans2; eassumption.
  - assert (NA : is_zero_box b \/ ~ (tile_aligned t cb /\ sub_cells rq cb)).
    { destruct (zero_box_dec b) as [Z0|Z0]; [now left|right]. intros [[D1 D2] [S1 S2]]. apply Q.
      destruct (U Z0) as (T1 & T2 & _). cbn [cmin cmax] in T1, T2. rewrite min_id in T1 by exact S1. rewrite max_id in T2 by exact S2.
      destruct cb' as [mn mx], cb as [lo hi]. cbn [cmin cmax] in *. f_equal.
      - apply (aligned_fix t); auto. lia.
      - apply (aligned_fix t); auto. lia. }
    destruct (zero_box_dec b) as [Z0|Z0].
    + destruct (C3 Q (or_introl Z0)) as (g'' & E' & _). split; [|intro N; destruct (N g'' E')]. split; [now left|]. eauto.
    + destruct NA as [NA|NA]; [contradiction|]. 
      destruct (le_list_dec (map2 Z.sub (cmax cb) (cmin cb)) (nd_shape (gm_data g))) as [F|F].
      * destruct (C3 Q (or_intror F)) as (g'' & E' & _). split; [|intro N; destruct (N g'' E')]. split; [now right; right|]. eauto.
      * pose proof (C2 Q Z0 F) as E'. split; [|now intros _]. split; [|tauto]. intros [g'' E'']. rewrite E' in E''. discriminate E''.
Qed.

(** What an expansion keeps. *)
Lemma built_contents : forall d r t b g b' (v : A) g', map_range d r t -> request_ok d r b -> built r t b g -> request_ok d r b' ->
  gm_expand_bounds g b' v = Ret g' -> g' <> g ->
  exists cb', covers_cells d r t g' cb' /\
  (~ is_zero_box b -> sub_cells (cells_between r b) cb') /\
  (forall w, in_box (cells_between r b) w -> gm_get g' (map2 Z.sub w (cmin cb')) = gm_get g (map2 Z.sub w (cmin (cells_between r b)))) /\
  (forall w, in_box cb' w -> ~ in_box (cells_between r b) w -> gm_get g' (map2 Z.sub w (cmin cb')) = Ret v).
Proof.
  intros d r t b g b' v g' M RB B RQ E NE. pose proof M as (Hd & HR & Ht). pose proof (res_ok_pos r HR) as P.
  destruct (bounds_discretized_spec d b' r true (proj1 HR) P (proj1 RQ)) as (db & Edb & _).
  destruct (request_finite d r b RB) as [F1 F2]. rewrite !cells_map by assumption.
  destruct (box_near d r b HR RB) as [Wo _]. pose proof (built_over d r t b g B) as OV.
  destruct (expand_over d r t b g b' v db M RB OV RQ Edb) as (cb' & Oc & _ & U & C1 & C2 & C3).
  set (cb := mkCB (map (wc r) (bmin b)) (map (wc r) (bmax b))) in *.
  assert (Q : cb' <> cb) by (intro Q; rewrite (C1 Q) in E; congruence).
  assert (K : is_zero_box b \/ Forall2 Z.le (map2 Z.sub (cmax cb) (cmin cb)) (nd_shape (gm_data g))).
  { destruct (zero_box_dec b) as [Z0|Z0]; [now left|right].
    destruct (le_list_dec (map2 Z.sub (cmax cb) (cmin cb)) (nd_shape (gm_data g))) as [F|F]; [assumption|].
    rewrite (C2 Q Z0 F) in E. discriminate E. }
  destruct (C3 Q K) as (g'' & E' & W & _ & _ & G1 & G2). assert (g'' = g') by congruence. subst g''.
  exists cb'. split; [now apply wf_covers|]. split; [intro Z0; apply (U Z0)|].
  destruct Wo as (w1 & w2 & w3). pose proof Oc as (o1 & o2 & o3). pose proof W as [_ _ _ _ _ _ Ws Wst].
  split.
  - intros w Hw. pose proof Hw as Hw'. apply (box_range cb w) in Hw; [|congruence]. destruct Hw as [LW R].
    destruct K as [Z0|K].
    { exfalso. assert (X : cb = cb_empty d).
      { pose proof RB as ((l1 & l2 & _) & _). etransitivity; [symmetry; exact (from_bounds_map d b r HR l1 l2)|]. unfold cb_from_bounds. cbv zeta. rewrite l1.
        rewrite (proj2 (zero_box_iff b d l1 l2) Z0). reflexivity. }
      rewrite X in R. now apply (empty_no_cells d _ Hd) in R. }
    assert (S' : sub_cells cb cb').
    { destruct (zero_box_dec b) as [Z0|Z0]; [|apply (U Z0)]. exfalso.
      assert (X : cb = cb_empty d).
      { pose proof RB as ((l1 & l2 & _) & _). etransitivity; [symmetry; exact (from_bounds_map d b r HR l1 l2)|]. unfold cb_from_bounds. cbv zeta. rewrite l1.
        rewrite (proj2 (zero_box_iff b d l1 l2) Z0). reflexivity. }
      rewrite X in R. now apply (empty_no_cells d _ Hd) in R. }
    pose proof (sub_in_box _ _ _ S' Hw') as Hb. apply (box_range cb' w) in Hb; [|congruence]. destruct Hb as [_ Rb].
    assert (R2 : in_range (nd_shape (gm_data g)) (map2 Z.sub w (cmin cb))).
    { clear -R K. unfold in_range in *. revert R. generalize (map2 Z.sub w (cmin cb)). induction K; intros l0 R; inversion R; subst; constructor; [lia|auto]. }
    rewrite <- Ws in Rb. unfold gm_get.
    rewrite (ndindex_id _ _ Rb (proj1 Wst)), (ndindex_id _ _ R2 (proj1 (over_storage _ _ _ _ _ OV))).
    destruct (shift_move w (cmin cb) (cmin cb')) as [E1 _]; [exact LW|congruence|]. rewrite <- E1. now apply G1.
  - intros w Hw N. apply (box_range cb' w) in Hw; [|congruence]. destruct Hw as [LW R]. rewrite <- Ws in R.
    unfold gm_get. rewrite (ndindex_id _ _ R (proj1 Wst)). apply G2; [exact R|].
    destruct (shift_move w (cmin cb) (cmin cb')) as [_ E2]; [|congruence|].
    { rewrite LW. unfold cell in *. congruence. }
    rewrite E2. intro X. apply N. apply (box_range cb w); [congruence|]. split; [|exact X]. rewrite LW. unfold cell in *. congruence.
Qed.
End Built.
