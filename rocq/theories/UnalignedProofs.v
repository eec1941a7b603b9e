(** Proofs about maps made for boxes that are not aligned to tiles or cells. *)
From Coq Require Import ZArith List Bool Reals Lra Lia Psatz.
From Flocq Require Import Core BinarySingleNaN.
From Verif Require Import Base F32 FloatFacts RoundError Arith Geom NdArray GridMap Spec SpecMap ConverterProofs GeomProofs BoundsProofs NdProofs GridProofs ExpandProofs.
Open Scope Z_scope.

Lemma sub_zero : forall x : f32, finite x -> fsub x f0 = x.
Proof.
  intros x F. destruct x as [s| | |s m e H]; try discriminate F.
  - destruct s; reflexivity.
  - set (x := B754_finite s m e H) in *.
    assert (E : (B2R x - B2R f0)%R = B2R x) by (simpl (B2R f0); ring).
    destruct (fsub_fin x f0 F eq_refl) as [Fs Es].
    { rewrite E, rnd_float. apply B2R_lt_emax. }
    rewrite E, rnd_float in Es.
    assert (N : B2R x <> 0%R).
    { unfold x. cbn. intro Q. apply eq_0_F2R in Q. destruct s; discriminate Q. }
    apply B2R_inj; [|reflexivity|assumption].
    destruct (fsub x f0) as [s'| | |s' m' e' H']; try discriminate Fs; [|reflexivity]. exfalso. apply N. rewrite <- Es. reflexivity.
Qed.

Lemma number_wc : forall r x : f32, finite x -> cell_number r x = wc r x.
Proof. intros r x F. unfold wc, cell_coord_from_point_coord, cell_number. cbn. rewrite sub_zero by assumption. reflexivity. Qed.

Lemma cells_map : forall r (b : bounds), Forall finite (bmin b) -> Forall finite (bmax b) ->
  cells_between r b = mkCB (map (wc r) (bmin b)) (map (wc r) (bmax b)).
Proof.
  intros r b F1 F2. unfold cells_between. f_equal; apply map_ext_Forall; (eapply Forall_impl; [|eassumption]); intros x Hx; now apply number_wc.
Qed.

Lemma request_finite : forall d r b, request_ok d r b -> Forall finite (bmin b) /\ Forall finite (bmax b).
Proof. intros d r b (_ & N1 & N2). split; (eapply Forall_impl; [|eassumption]); intros x Hx; apply Hx. Qed.

(** A map over the box [b]. *)
Record over {A} (d : nat) (r : f32) (t : Z) (b : bounds) (g : grid_map A) : Prop := {
  over_resolution : gm_resolution g = r;
  over_tile_size : gm_tile_size g = t;
  over_bounds : gm_bounds g = b;
  over_shape : nd_shape (gm_data g) = cell_from_point F32A (bmax b) (bmin b) r;
  over_storage : storage_ok (gm_data g)
}.

Section Unaligned.
Context {A : Type}.
Implicit Types g : grid_map A.

Lemma built_over : forall d r t b g, built r t b g -> over d r t b g.
Proof.
  intros d r t b g H. induction H as [v g H|g c v g' _ [R1 R2 R3 R4 R5] H|g x _ [R1 R2 R3 R4 R5]|g _ [R1 R2 R3 R4 R5]|g l _ [R1 R2 R3 R4 R5]];
    try (constructor; assumption).
  - unfold gm_new in H. destruct (ndarray_with_bounds r b v) as [a| |] eqn:E; try discriminate. cbn [obind] in H. injection H as <-.
    destruct (new_storage _ _ _ _ E (cfp_in_isize _ _ _)) as (K & S & _). constructor; try reflexivity; assumption.
  - unfold gm_set in H. destruct (nd_set (gm_data g) (to_ndindex c) v) as [a| |] eqn:E; try discriminate.
    cbn [obind] in H. injection H as <-. destruct (set_get _ _ _ _ R5 E) as (S' & Sh & _).
    constructor; try assumption. cbn [gm_data]. congruence.
Qed.

Lemma cfp_length : forall (p o : point) r, length p = length o -> length (cell_from_point F32A p o r) = length p.
Proof. intros p o r L. unfold cell_from_point. now apply map2_length. Qed.

Lemma box_near : forall d r b, res_ok r -> request_ok d r b ->
  let cb := mkCB (map (wc r) (bmin b)) (map (wc r) (bmax b)) in cb_ordered d cb /\ cb_near (2 ^ 18 + 2) cb.
Proof.
  intros d r b HR ((L1 & L2 & O) & N1 & N2). cbv zeta. 
  assert (B : forall x, within_cells (2 ^ 18) r x -> Z.abs (wc r x) <= 2 ^ 18 + 2).
  { intros x [F W]. change (2 ^ 18 + 2) with 262146. apply le_IZR. rewrite abs_IZR.
    eapply Rle_trans; [apply (wc_bound r x 262144 HR F); [lra|]|lra]. exact W. }
  split; [split; [|split]|split]; cbn [cmin cmax]; rewrite ?map_length; try assumption.
  - clear -O HR. induction O; cbn [map]; constructor; [now apply wc_mono|assumption].
  - clear -N1 B. induction N1; cbn [map]; constructor; auto.
  - clear -N2 B. induction N2; cbn [map]; constructor; auto.
Qed.

(** What expanding does: nothing, a panic, or a well-formed map. *)
Lemma expand_over : forall d r t b g b' v db, map_range d r t -> request_ok d r b -> over d r t b g -> request_ok d r b' ->
  bounds_discretized b' r true = Ret db ->
  let cb := mkCB (map (wc r) (bmin b)) (map (wc r) (bmax b)) in
  let rq := mkCB (map (wc r) (bmin db)) (map (wc r) (bmax db)) in
  let u := mkCB (map2 Z.min (cmin cb) (cmin rq)) (map2 Z.max (cmax cb) (cmax rq)) in
  let size := map2 Z.sub (cmax cb) (cmin cb) in
  exists cb', cb_ordered d cb' /\
    (is_zero_box b -> Forall2 (tile_below t) (cmin rq) (cmin cb') /\ Forall2 (tile_above t) (cmax rq) (cmax cb')) /\
    (~ is_zero_box b -> Forall2 (tile_below t) (cmin u) (cmin cb') /\ Forall2 (tile_above t) (cmax u) (cmax cb') /\ sub_cells cb cb') /\
    (cb' = cb -> gm_expand_bounds g b' v = Ret g) /\
    (cb' <> cb -> ~ is_zero_box b -> ~ Forall2 Z.le size (nd_shape (gm_data g)) -> gm_expand_bounds g b' v = Panic) /\
    (cb' <> cb -> is_zero_box b \/ Forall2 Z.le size (nd_shape (gm_data g)) ->
       exists g', gm_expand_bounds g b' v = Ret g' /\ wf d r t g' cb' /\
       gm_track_changes g' = gm_track_changes g /\ gm_changed_cells g' = gm_changed_cells g /\
       (let shift := map2 Z.sub (cmin cb) (cmin cb') in
        (forall c, in_range size c -> nd_get (gm_data g') (map2 Z.add c shift) = nd_get (gm_data g) c) /\
        (forall c, in_range (nd_shape (gm_data g')) c -> ~ in_range size (map2 Z.sub c shift) ->
           nd_get (gm_data g') c = Ret v))).
Proof.
  intros d r t b g b' v db (Hd & HR & Ht) RB W RQ Edb cb rq u size. destruct W as [Wr Wt Wb Ws Wst].
  destruct (box_near d r b HR RB) as [Wo Wn0]. fold cb in Wo, Wn0.
  assert (Wn : cb_near KB cb) by (eapply near_weaken; [exact Wn0|unfold KB; lia]).
  destruct (disc_near d r b' db HR RQ Edb) as (Od & Sb & Nr & Or). fold rq in Nr.
  assert (Orq : cb_ordered d rq).
  { destruct Od as (D1 & D2 & _). unfold rq; repeat split; cbn [cmin cmax]; rewrite ?map_length; assumption. }
  assert (Nrq : cb_near KB rq) by (eapply near_weaken; [exact Nr|unfold KB; lia]).
  pose proof RB as ((LB1 & LB2 & OB) & _).
  assert (ZB : is_zero_box b \/ ~ is_zero_box b).
  { destruct (bounds_eqb b (bounds_empty d)) eqn:E; [left|right; intro Q].
    - now apply (zero_box_iff b d LB1 LB2).
    - apply (zero_box_iff b d LB1 LB2) in Q. congruence. }
  (* the box of cells before rounding to tiles *)
  assert (J : exists j, cb_from_bounds (bounds_enclosing b db) r = j /\ (is_zero_box b -> j = rq) /\ (~ is_zero_box b -> j = u /\ sub_cells cb j) /\
     cb_ordered d j /\ cb_near (2 ^ 18 + 2) j).
  { pose proof Od as (D1 & D2 & DO). destruct ZB as [Z0|Z0].
    - exists rq. split; [|split; [reflexivity|split; [contradiction|split; assumption]]]. 
      rewrite (enclosing_empty d) by assumption. now apply (from_bounds_map d).
    - exists u. destruct Wo as (w1 & w2 & w3), Orq as (o1 & o2 & o3), Wn0 as [n1 n2], Nr as [m1 m2].
      destruct (map2_le (cmin cb) (cmin rq) ltac:(congruence)) as (A1 & A2 & _ & _).
      destruct (map2_le (cmax cb) (cmax rq) ltac:(congruence)) as (_ & _ & A3 & A4).
      split; [|split; [contradiction|split; [split; [reflexivity|split; assumption]|split]]].
      + destruct (ordered_no_nan d b) as [NN1 NN2]; [repeat split; assumption|]. destruct (ordered_no_nan d db) as [DN1 DN2]; [repeat split; assumption|].
        unfold bounds_enclosing. rewrite LB1.
        destruct (bounds_eqb b (bounds_empty d)) eqn:F; [apply zero_box_iff in F; try assumption; contradiction|].
        rewrite (from_bounds_map d) by (try assumption; cbn [bmin bmax]; rewrite map2_length; congruence).
        cbn [bmin bmax]. rewrite map_wc_min, map_wc_max by assumption. reflexivity.
      + unfold u. split; [|split]; cbn [cmin cmax]; rewrite ?map2_length by congruence; try assumption.
        eapply Zle_trans2; [exact A1|]. eapply Zle_trans2; [exact w3|exact A3].
      + unfold u. split; cbn [cmin cmax]; apply map2_near; try assumption; intros x y; lia. }
  destruct J as (j & J & JZ & JN & Oj & Nj).
  assert (TI : exists cb', cb_discretized j t = Ret cb').
  { apply cb_discretized_ok; [lia|]. destruct Nj as [J1 J2]. apply Forall_app.
    split; (eapply Forall_impl; [|eassumption]); cbv beta; intros; unfold isize_min, isize_max in *; lia. }
  destruct TI as [cb' Ecb'].
  assert (TI2 := Ecb'). apply cb_discretized_iff in TI2;
    [|unfold isize_max; lia|destruct Nj as [J1 J2]; eapply Forall_impl; [|exact J1]; cbv beta; intros; unfold isize_min, isize_max in *; lia
     |destruct Nj as [J1 J2]; eapply Forall_impl; [|exact J2]; cbv beta; intros; unfold isize_min, isize_max in *; lia].
  destruct TI2 as (T1 & T2 & _ & _).
  destruct (below_le _ _ _ T1) as [B1 D1]. destruct (above_le _ _ _ T2) as [B2 D2].
  assert (Oc : cb_ordered d cb').
  { destruct Oj as (J1 & J2 & J3). split; [|split].
    - rewrite <- J1. symmetry. exact (Forall2_length _ _ _ T1).
    - rewrite <- J2. symmetry. exact (Forall2_length _ _ _ T2).
    - eapply Zle_trans2; [exact B1|]. eapply Zle_trans2; [exact J3|exact B2]. }
  assert (Nc : cb_near KB cb').
  { destruct Nj as [J1 J2]. split; [exact (below_near1 t _ _ Ht T1 J1)|exact (above_near1 t _ _ Ht T2 J2)]. }
  assert (SC : ~ is_zero_box b -> sub_cells cb cb').
  { intro Z0. destruct (JN Z0) as [_ [E1 E2]]. split; eapply Zle_trans2; eassumption. }
  assert (Ecb : cb_from_bounds (gm_bounds g) r = cb) by (rewrite Wb; now apply (from_bounds_map d)).
  exists cb'. split; [exact Oc|]. split; [intro Z0; rewrite <- (JZ Z0); auto|]. split; [intro Z0; rewrite <- (proj1 (JN Z0)); auto|].
  unfold gm_expand_bounds. rewrite Wr, Edb. cbn [obind]. rewrite Wb in *. rewrite J, Wt, Ecb'. cbn [obind]. rewrite Ecb.
  destruct (cb_eqb cb' cb) eqn:EQ.
  { apply cb_eqb_true in EQ. split; [reflexivity|]. split; intro Q; contradiction. }
  assert (NE : cb' <> cb) by (intro Q; apply cb_eqb_true in Q; congruence).
  split; [contradiction|].
  destruct (nwb_ok d r cb' v ltac:(lia) HR Oc (near_weaken KB (2 ^ 19) cb' Nc ltac:(unfold KB; lia))) as (a & Ea & Ka & Sa & Ga).
  rewrite Ea. cbn [obind]. rewrite LB1.
  destruct (bounds_eqb b (bounds_empty d)) eqn:Z0.
  - apply zero_box_iff in Z0; try assumption. split; [contradiction|]. intros _ _. cbn [obind].
    eexists. split; [reflexivity|]. split; [now constructor|].
    split; [reflexivity|]. split; [reflexivity|]. cbn [gm_data]. cbv zeta. split.
    + intros c H. exfalso. assert (Q : cb = cb_empty d).
      { etransitivity; [symmetry; exact (from_bounds_map d b r HR LB1 LB2)|]. unfold cb_from_bounds. cbv zeta. rewrite LB1.
        rewrite (proj2 (zero_box_iff b d LB1 LB2) Z0). reflexivity. }
      unfold size in H. rewrite Q in H. now apply (empty_no_cells d c Hd) in H.
    + intros c H _. now apply Ga.
  - assert (NZ : ~ is_zero_box b). { intro Q. apply (zero_box_iff b d LB1 LB2) in Q. congruence. }
    destruct (SC NZ) as [S1 S2].
    assert (W40 : forall c, cb_near KB c -> Forall (fun x => Z.abs x <= 2 ^ 40) (cmin c) /\ Forall (fun x => Z.abs x <= 2 ^ 40) (cmax c)).
    { intros c Hc. exact (near_weaken _ (2 ^ 40) _ Hc ltac:(unfold KB; lia)). }
    destruct (W40 cb Wn) as [X1 X2]. destruct (W40 cb' Nc) as [X3 X4].
    rewrite (cell_sub_ok (cmin cb) (cmin cb')), (cell_sub_ok (cmax cb) (cmin cb)) by assumption. cbn [obind].
    set (off := map2 Z.sub (cmin cb) (cmin cb')). fold size.
    assert (OP : Forall (fun o => 0 <= o <= 2 * KB) off).
    { unfold off. destruct Wn as [n1 _], Nc as [m1 _]. clear -S1 n1 m1. revert n1 m1. induction S1; intros n1 m1; cbn [map2]; constructor; inversion n1; inversion m1; subst; auto. unfold KB in *. lia. }
    assert (AS : forallb (fun o => 0 <=? o) (firstn 2 off) = true).
    { apply forallb_forall. intros x Hx. apply Z.leb_le. rewrite Forall_forall in OP. 
      assert (In x off) by (rewrite <- (firstn_skipn 2 off); apply in_or_app; now left). apply OP in H. lia. }
    rewrite AS. cbn [oassert obind].
    pose proof Wo as (w1 & w2 & w3). pose proof Oc as (o1 & o2 & o3).
    assert (LZ : length size = d) by (unfold size; rewrite map2_length; congruence).
    assert (LS : length off = length size) by (unfold off; rewrite LZ, map2_length; congruence).
    assert (SP : Forall (fun x => 0 <= x <= 2 ^ 40) size).
    { unfold size. destruct Wn as [n1 n2]. clear -w3 n1 n2. revert n1 n2. induction w3; intros n1 n2; cbn [map2]; constructor; inversion n1; inversion n2; subst; auto. unfold KB in *. lia. }
    rewrite cell_add_ok; [|eapply Forall_impl; [|exact SP]; cbv beta; lia|eapply Forall_impl; [|exact OP]; cbv beta; unfold KB; lia].
    cbn [obind].
    assert (FIT : Forall2 (fun n on => 0 <= snd on /\ fst on + snd on <= n) (nd_shape a) (combine size off)).
    { rewrite Sa. unfold size, off. 
      clear -S1 S2. revert S2. generalize (cmax cb) (cmax cb'). induction S1 as [|x y l m H S1 IH]; intros p w S2.
      - destruct S2; cbn; constructor.
      - destruct S2 as [|x' y' l' m' H' S2]; cbn [map2 combine]; [constructor|]. cbn [map2]. constructor; [cbn [fst snd]; lia|]. now apply IH. }
    assert (LG : length size = length (nd_shape (gm_data g))).
    { rewrite LZ, Ws. rewrite cfp_length by congruence. congruence. }
    replace (repeat 0 d) with (repeat 0 (length off)) by (f_equal; congruence).
    split.
    + intros _ _ N. rewrite slice_assign_over; try assumption; [reflexivity|]. eapply Forall_impl; [|exact SP]. cbv beta. lia.
    + intros _ [Q|F]; [contradiction|].
      destruct (slice_assign_part a (gm_data g) off size Ka Wst) as (q & Eq & Kq & Sq & G1 & G2); try assumption.
      { clear -SP F. induction F; constructor; inversion SP; subst; auto. lia. }
      rewrite Eq. cbn [obind]. eexists. split; [reflexivity|].
      split; [constructor; try assumption; try reflexivity; [now split|cbn [gm_data]; congruence]|]. split; [reflexivity|]. split; [reflexivity|]. cbn [gm_data]. cbv zeta. split.
      * intros c H. now apply G1.
      * intros c H N. rewrite G2 by (rewrite <- ?Sq; assumption). apply Ga. now rewrite <- Sq.
Qed.

Lemma le_list_dec : forall a b : list Z, Forall2 Z.le a b \/ ~ Forall2 Z.le a b.
Proof.
  induction a as [|x a IH]; intros [|y b]; try (right; intro H; now inversion H); [left; constructor|].
  destruct (IH b) as [Q|Q]; [|right; intro H; inversion H; contradiction].
  destruct (Z_le_gt_dec x y); [left; now constructor|right; intro H; inversion H; lia].
Qed.
Lemma zero_box_dec : forall b : bounds, is_zero_box b \/ ~ is_zero_box b.
Proof.
  assert (D : forall l : list f32, Forall (fun x => feqb x f0 = true) l \/ ~ Forall (fun x => feqb x f0 = true) l).
  { induction l as [|x l IH]; [left; constructor|]. destruct IH as [Q|Q]; [|right; intro H; inversion H; contradiction].
    destruct (feqb x f0) eqn:E; [left; now constructor|right; intro H; inversion H; congruence]. }
  intro b. unfold is_zero_box. destruct (D (bmin b)), (D (bmax b)); tauto.
Qed.
Lemma cb_dec : forall a b : cell_bounds, a = b \/ a <> b.
Proof. intros a b. destruct (cb_eqb a b) eqn:E; [left; now apply cb_eqb_true|right; intro Q; apply cb_eqb_true in Q; congruence]. Qed.

Lemma grown_wf : forall d r t b g b' v g', map_range d r t -> request_ok d r b -> built r t b g -> request_ok d r b' ->
  gm_expand_bounds g b' v = Ret g' -> g' = g \/ exists cb', wf d r t g' cb'.
Proof.
  intros d r t b g b' v g' M RB B RQ E. pose proof M as (Hd & HR & Ht). pose proof (res_ok_pos r HR) as P.
  destruct (bounds_discretized_spec d b' r true (proj1 HR) P (proj1 RQ)) as (db & Edb & _).
  destruct (expand_over d r t b g b' v db M RB (built_over d r t b g B) RQ Edb) as (cb' & _ & _ & _ & C1 & C2 & C3).
  destruct (cb_dec cb' (mkCB (map (wc r) (bmin b)) (map (wc r) (bmax b)))) as [Q|Q].
  - left. rewrite (C1 Q) in E. congruence.
  - right. exists cb'. destruct (zero_box_dec b) as [Z0|Z0].
    + destruct (C3 Q (or_introl Z0)) as (g'' & E' & W & _). congruence.
    + match type of C2 with _ -> _ -> ~ ?L -> _ => destruct (le_list_dec (map2 Z.sub (map (wc r) (bmax b)) (map (wc r) (bmin b))) (nd_shape (gm_data g))) as [F|F] end.
      * destruct (C3 Q (or_intror F)) as (g'' & E' & W & _). congruence.
      * rewrite (C2 Q Z0 F) in E. discriminate E.
Qed.
End Unaligned.
