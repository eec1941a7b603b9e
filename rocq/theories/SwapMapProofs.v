(** Maps with the first two axes exchanged. *)
From Coq Require Import ZArith List Bool Lia Permutation.
From Flocq Require Import Core BinarySingleNaN.
From Verif Require Import Base F32 FloatFacts Arith Geom NdArray GridMap RayCaster NoiseModel Spec SpecMap SpecNoise SpecRay SpecScale SpecSwap NdProofs GeomProofs GridProofs RayProofs CastProofs RaysProofs ExpandProofs MapProofs NoiseProofs MergeProofs ReturnProofs ScaleMapProofs SwapProofs.
Open Scope Z_scope.

Definition swapped_cb (cb : cell_bounds) : cell_bounds := mkCB (swapped (cmin cb)) (swapped (cmax cb)).
Lemma swapped_cb_twice : forall cb, swapped_cb (swapped_cb cb) = cb.
Proof. intros [a b]. unfold swapped_cb. cbn [cmin cmax]. now rewrite !swapped_twice. Qed.
Lemma swapped_repeat : forall {A} (x : A) n, swapped (repeat x n) = repeat x n.
Proof. intros A x [|[|n]]; reflexivity. Qed.
Lemma swapped_forallb : forall {A B} (f : A * B -> bool) a b, length a = length b -> forallb f (combine (swapped a) (swapped b)) = forallb f (combine a b).
Proof.
  intros A B f [|x [|y a]] [|u [|w b]] L; try discriminate L; try reflexivity. cbn [swapped combine forallb]. rewrite !andb_assoc. f_equal. apply andb_comm.
Qed.

(** ** Boxes *)
Lemma cloud_swapped : forall d c c', nrows c = d -> (forall p, In p (pc_points c) -> length p = d) -> swapped_cloud c c' -> pc_bounds c' = swapped_box (pc_bounds c).
Proof.
  intros d c c' E H [N P]. unfold pc_bounds. rewrite P, N, E.
  assert (G : forall ps b, (forall p, In p ps -> length p = d) -> length (bmin b) = d -> length (bmax b) = d ->
    fold_left bounds_add_point (map swapped ps) (swapped_box b) = swapped_box (fold_left bounds_add_point ps b)).
  { induction ps as [|p ps IH]; intros b L L1 L2; [reflexivity|]. cbn [map fold_left]. pose proof (L p (or_introl eq_refl)) as Lp.
    assert (A : bounds_add_point (swapped_box b) (swapped p) = swapped_box (bounds_add_point b p)).
    { unfold bounds_add_point, swapped_box. cbn [bmin bmax]. now rewrite !swapped_map2 by congruence. }
    rewrite A. apply IH; [intros q Hq; apply L; now right| |]; cbn [bmin bmax bounds_add_point]; now apply map2_len. }
  rewrite <- G; [|exact H| |]; cbn [bounds_empty bmin bmax]; unfold origin; try now rewrite repeat_length.
  f_equal. unfold swapped_box, bounds_empty. cbn [bmin bmax]. unfold origin. now rewrite swapped_repeat.
Qed.
Lemma request_swapped : forall d r b, request_ok d r b -> request_ok d r (swapped_box b).
Proof.
  intros d r b ((L1 & L2 & O) & W1 & W2). unfold swapped_box. repeat split; cbn [bmin bmax]; rewrite ?swapped_length; try assumption.
  - now apply swapped_Forall2.
  - now apply swapped_Forall.
  - now apply swapped_Forall.
Qed.
Lemma discretized_swapped : forall d b r e db, length (bmin b) = d -> length (bmax b) = d -> bounds_discretized b r e = Ret db -> bounds_discretized (swapped_box b) r e = Ret (swapped_box db).
Proof.
  intros d b r e db L1 L2 H. unfold bounds_discretized, bounds_new in *. cbn [swapped_box bmin bmax].
  rewrite !swapped_map_list, swapped_forallb by (rewrite !map_length; congruence).
  destruct (oassert _) as [[]| |]; try discriminate H. cbn [obind] in *. injection H as <-. reflexivity.
Qed.
Lemma box_eqb_swapped : forall d a b, length (bmin a) = d -> length (bmax a) = d -> length (bmin b) = d -> length (bmax b) = d -> bounds_eqb (swapped_box a) (swapped_box b) = bounds_eqb a b.
Proof.
  intros d a b L1 L2 L3 L4. unfold bounds_eqb, point_eqb, swapped_box. cbn [bmin bmax]. now rewrite !swapped_length, !swapped_forallb by congruence.
Qed.
Lemma from_bounds_swapped : forall d b r, length (bmin b) = d -> length (bmax b) = d -> cb_from_bounds (swapped_box b) r = swapped_cb (cb_from_bounds b r).
Proof.
  intros d b r L1 L2. unfold cb_from_bounds. assert (E : bounds_empty (length (bmin (swapped_box b))) = swapped_box (bounds_empty (length (bmin b)))).
  { unfold swapped_box, bounds_empty. cbn [bmin bmax]. rewrite swapped_length. unfold origin. now rewrite swapped_repeat. }
  rewrite E. rewrite (box_eqb_swapped d) by (try assumption; cbn [bounds_empty bmin bmax]; unfold origin; now rewrite repeat_length).
  destruct (bounds_eqb _ _).
  - unfold swapped_cb, cb_empty, cell_origin. cbn [cmin cmax swapped_box bmin]. now rewrite swapped_length, swapped_repeat.
  - unfold swapped_cb. cbn [cmin cmax]. cbn [swapped_box bmin bmax]. rewrite swapped_length. unfold cell_from_point.
    assert (O : forall n, origin n = swapped (origin n)) by (intro n; unfold origin; now rewrite swapped_repeat).
    rewrite (O (length (bmin b))) at 1. rewrite (O (length (bmin b))) at 2.
    rewrite (swapped_map2 _ (bmin b)) by (unfold origin; rewrite repeat_length; reflexivity).
    rewrite (swapped_map2 _ (bmax b)) by (unfold origin; rewrite repeat_length; exact (eq_trans L2 (eq_sym L1))). reflexivity.
Qed.
Lemma from_cells_swapped : forall d cb r, length (cmin cb) = d -> length (cmax cb) = d -> bounds_from_cell_bounds (swapped_cb cb) r = swapped_box (bounds_from_cell_bounds cb r).
Proof.
  intros d cb r L1 L2. unfold bounds_from_cell_bounds, swapped_box. cbn [bmin bmax swapped_cb cmin cmax]. rewrite swapped_length. unfold point_from_cell.
  assert (O : forall n, origin n = swapped (origin n)) by (intro n; unfold origin; now rewrite swapped_repeat).
  rewrite (O (length (cmin cb))) at 1. rewrite (O (length (cmin cb))) at 2.
  rewrite (swapped_map2 _ (cmin cb)) by (unfold origin; rewrite repeat_length; reflexivity).
  rewrite (swapped_map2 _ (cmax cb)) by (unfold origin; rewrite repeat_length; exact (eq_trans L2 (eq_sym L1))). reflexivity.
Qed.
Lemma union_swapped : forall d a b u, cb_ordered d a -> cb_ordered d b -> cells_union d a b u -> cells_union d (swapped_cb a) (swapped_cb b) (swapped_cb u).
Proof.
  intros d a b u (A1 & A2 & _) (B1 & B2 & _) [U1 U2]. assert (Z0 : swapped_cb (cb_empty d) = cb_empty d) by (unfold swapped_cb, cb_empty, cell_origin; cbn [cmin cmax]; now rewrite swapped_repeat).
  split; intro H.
  - f_equal. apply U1. rewrite <- (swapped_cb_twice a), H. exact Z0.
  - rewrite (U2 ltac:(intro K; apply H; now rewrite K)). unfold swapped_cb. cbn [cmin cmax]. now rewrite !swapped_map2 by (unfold cell in *; congruence).
Qed.
Lemma below_unique : forall t a x y, Forall2 (tile_below t) a x -> Forall2 (tile_below t) a y -> x = y.
Proof.
  intros t a x y H. revert y. induction H as [|c u a x [[q Q] R] H IH]; intros y K; inversion K as [|? w ? y' [[p P] S] K']; subst; [reflexivity|]. f_equal; [|now apply IH]. f_equal. nia.
Qed.
Lemma above_unique : forall t a x y, Forall2 (tile_above t) a x -> Forall2 (tile_above t) a y -> x = y.
Proof.
  intros t a x y H. revert y. induction H as [|c u a x [[q Q] R] H IH]; intros y K; inversion K as [|? w ? y' [[p P] S] K']; subst; [reflexivity|]. f_equal; [|now apply IH]. f_equal. nia.
Qed.
Lemma in_box_swapped : forall cb w, in_box cb w -> in_box (swapped_cb cb) (swapped w).
Proof. intros cb w [H1 H2]. split; cbn [swapped_cb cmin cmax]; now apply swapped_Forall2. Qed.
Lemma in_range_swapped : forall s c, in_range s c -> in_range (swapped s) (swapped c).
Proof. intros s c H. unfold in_range in *. now apply swapped_Forall2. Qed.
Lemma in_range_back : forall s c, in_range (swapped s) (swapped c) -> in_range s c.
Proof. intros s c H. apply in_range_swapped in H. now rewrite !swapped_twice in H. Qed.

(** ** Growing *)
Lemma range_isize : forall {A} d r t (g : grid_map A) cb c, wf d r t g cb -> in_range (nd_shape (gm_data g)) c -> cells_in_isize c.
Proof.
  intros A d r t g cb c [_ _ (L1 & L2 & _) _ [N1 N2] _ Ws _] I. rewrite Ws in I. clear Ws. destruct cb as [mn mx]. cbn [cmin cmax] in *.
  rewrite <- L1 in L2. clear L1. revert mn N1 L2 c I. induction N2 as [|y mx Hy N2 IH]; intros [|x mn] N1 L2 c I; try discriminate L2; cbn [map2] in I; inversion I as [|? z ? c' H I']; subst; constructor.
  - inversion N1; subst. unfold KB, isize_min, isize_max in *. lia.
  - inversion N1; subst. apply (IH mn); try assumption. now injection L2.
Qed.
Lemma wf_swapped : forall {A} d r t (g g' : grid_map A) cb, wf d r t g cb -> swapped_map g g' -> storage_ok (gm_data g') -> wf d r t g' (swapped_cb cb).
Proof.
  intros A d r t g g' cb [Wr Wt (O1 & O2 & O3) [A1 A2] [N1 N2] Wb Ws Wst] (B & R & T & _ & S & _) St.
  constructor; try congruence.
  - repeat split; cbn [swapped_cb cmin cmax]; rewrite ?swapped_length; try assumption. now apply swapped_Forall2.
  - split; cbn [swapped_cb cmin cmax]; now apply swapped_Forall.
  - split; cbn [swapped_cb cmin cmax]; now apply swapped_Forall.
  - rewrite B, Wb. symmetry. now apply (from_cells_swapped d).
  - rewrite S, Ws. cbn [swapped_cb cmin cmax]. now rewrite swapped_map2 by (unfold cell in *; congruence).
Qed.
Lemma expand_swapped : forall {A} d r t (g g' : grid_map A) cb b v, map_range d r t -> wf d r t g cb -> swapped_map g g' -> storage_ok (gm_data g') -> request_ok d r b ->
  exists g1 g1' cb1, gm_expand_bounds g b v = Ret g1 /\ gm_expand_bounds g' (swapped_box b) v = Ret g1' /\ wf d r t g1 cb1 /\ swapped_map g1 g1' /\ storage_ok (gm_data g1').
Proof.
  intros A d r t g g' cb b v M W SM St RQ. pose proof (wf_swapped d r t g g' cb W SM St) as W'.
  destruct (expand_step d r t g cb b v M W RQ) as (db & g1 & cb1 & u & Edb & E & W1 & U & T1 & T2 & _ & _ & _ & K1 & K2 & Old & New & _).
  destruct (expand_step d r t g' (swapped_cb cb) (swapped_box b) v M W' (request_swapped d r b RQ)) as (db' & g1' & cb1' & u' & Edb' & E' & W1' & U' & T1' & T2' & _ & _ & _ & K1' & K2' & Old' & New' & _).
  exists g1, g1', cb1. split; [exact E|]. split; [exact E'|]. split; [exact W1|].
  pose proof RQ as ((Lb1 & Lb2 & _) & _). rewrite (discretized_swapped d b r true db Lb1 Lb2 Edb) in Edb'. injection Edb' as <-.
  destruct (disc_near d r b db (proj1 (proj2 M)) RQ Edb) as ((D1 & D2 & D3) & Sb & Nr & Or).
  assert (Orq : cb_ordered d (cb_from_bounds db r)).
  { rewrite (from_bounds_map d) by (try assumption; apply M). repeat split; cbn [cmin cmax]; rewrite ?map_length; assumption. }
  rewrite (from_bounds_swapped d) in U' by assumption.
  pose proof W as [Wr Wt Wo Wa Wn Wb Ws Wst]. pose proof W1 as [Wr1 Wt1 Wo1 Wa1 Wn1 Wb1 Ws1 Wst1]. pose proof W1' as [Wr1' Wt1' Wo1' Wa1' Wn1' Wb1' Ws1' Wst1'].
  pose proof (union_swapped d _ _ _ Wo Orq U) as U2.
  assert (EU : u' = swapped_cb u).
  { destruct U' as [X1 X2], U2 as [Y1 Y2]. destruct (cb_eqb (swapped_cb cb) (cb_empty d)) eqn:Q.
    - apply cb_eqb_true in Q. now rewrite (X1 Q), (Y1 Q).
    - assert (Q' : swapped_cb cb <> cb_empty d) by (intro K; apply cb_eqb_true in K; congruence). now rewrite (X2 Q'), (Y2 Q'). }
  subst u'. assert (EC : cb1' = swapped_cb cb1).
  { destruct cb1' as [mn mx]. unfold swapped_cb in *. cbn [cmin cmax] in *. f_equal.
    - apply (below_unique t (swapped (cmin u))); [exact T1'|]. now apply swapped_Forall2.
    - apply (above_unique t (swapped (cmax u))); [exact T2'|]. now apply swapped_Forall2. }
  subst cb1'. split; [|exact Wst1']. destruct SM as (SB & SR & ST & SK & SS & SG & SC). destruct Wo1 as (L1 & L2 & L3). destruct Wo as (L4 & L5 & L6).
  assert (SH : nd_shape (gm_data g1') = swapped (nd_shape (gm_data g1))) by (rewrite Ws1', Ws1; cbn [swapped_cb cmin cmax]; now rewrite swapped_map2 by (unfold cell in *; congruence)).
  repeat split; try congruence.
  - rewrite Wb1', Wb1. now apply (from_cells_swapped d).
  - intros c Ic. assert (Ic' : cells_in_isize (swapped c)) by now apply swapped_Forall.
    destruct (gm_get_iff g1 c Wst1 Ic) as [G1 G2]. destruct (gm_get_iff g1' (swapped c) Wst1' Ic') as [G1' G2'].
    destruct (in_shape (nd_shape (gm_data g1)) c) eqn:Q.
    + apply in_shape_iff in Q. clear G1 G2 G1' G2'. pose proof Q as Q0. rewrite Ws1 in Q0. apply range_box in Q0; [|unfold cell in *; congruence]. destruct Q0 as [B EQ].
      set (w := map2 Z.add (cmin cb1) c) in *. pose proof (in_box_swapped cb1 w B) as B'. assert (Lw : length w = d) by (destruct B as [B _]; apply Forall2_length in B; unfold cell in *; congruence).
      assert (EQ' : map2 Z.sub (swapped w) (cmin (swapped_cb cb1)) = swapped c) by (cbn [swapped_cb cmin]; rewrite swapped_map2 by (unfold cell in *; congruence); unfold cell in *; now rewrite EQ).
      destruct (in_box_dec cb w) as [I|I].
      * destruct (Old w I) as (_ & x & X1 & X2). destruct (Old' (swapped w) (in_box_swapped cb w I)) as (_ & y & Y1 & Y2).
        unfold cell in *. rewrite EQ in X2. rewrite EQ' in Y2. rewrite X2, Y2. rewrite <- Y1, <- X1. cbn [swapped_cb cmin]. rewrite swapped_map2 by congruence. apply SG.
        apply (range_isize d r t g cb _ W). apply (box_range cb w) in I; [|congruence]. destruct I as [_ I]. now rewrite Ws.
      * unfold cell in *. pose proof (New w I B) as X. rewrite EQ in X. rewrite X. rewrite <- EQ'. apply New'; [|exact B'].
        intro K. apply I. apply in_box_swapped in K. now rewrite swapped_cb_twice, swapped_twice in K.
    + assert (NR : ~ in_range (nd_shape (gm_data g1)) c) by (intro K; apply in_shape_iff in K; congruence).
      rewrite (G2 NR). apply G2'. rewrite SH. intro K. apply NR. now apply in_range_back.
Qed.

(** ** Scans *)
Lemma integrate_split : forall fuel of oo m g g1 o cloud free occ, is_order of -> is_order oo -> storage_ok (gm_data g1) ->
  gm_expand_bounds g (pc_bounds cloud) f0 = Ret g1 -> cast_rays fuel o cloud (gm_bounds g1) (gm_resolution g1) (max_range m) = Ret (free, occ) ->
  let fits := Forall (in_range (nd_shape (gm_data g1))) free /\ Forall (in_range (nd_shape (gm_data g1))) occ in
  (fits -> exists g2, integrate_point_cloud fuel of oo m g o cloud = Ret g2) /\ (~ fits -> integrate_point_cloud fuel of oo m g o cloud = Panic).
Proof.
  intros fuel of oo m g g1 o cloud free occ Hf Ho S1 E1 Ec fits. destruct (integrate_iff fuel of oo m g g1 o cloud Hf Ho S1 E1) as [A B].
  destruct (cast_rays_sets _ _ _ _ _ _ _ _ Ec) as (Sa & So & Sf & Nf & No).
  match type of A with _ <-> ?X => assert (K : fits <-> X) end.
  { unfold fits. rewrite !Forall_forall. split.
    - intros [Rf Ro] p Hp. destruct (Sa p Hp) as ([rc oe] & Ep). exists rc, oe. split; [exact Ep|]. split.
      + apply Forall_forall. intros x Hx. destruct (in_dec (list_eq_dec Z.eq_dec) x occ) as [Y|Y]; [now apply Ro|]. apply Rf, Sf. split; [|exact Y]. exists p, rc, oe. auto.
      + intros c ->. apply Ro, So. exists p, rc. auto.
    - intros H. split; intros x Hx.
      + apply Sf in Hx. destruct Hx as [(p & rc & oe & Hp & E' & I) _]. destruct (H p Hp) as (rc' & oe' & E'' & Q1 & _). rewrite E' in E''. injection E'' as <- <-. rewrite Forall_forall in Q1. now apply Q1.
      + apply So in Hx. destruct Hx as (p & rc & Hp & E'). destruct (H p Hp) as (rc' & oe' & E'' & _ & Q2). rewrite E' in E''. injection E'' as <- <-. now apply Q2. }
  split; intro H.
  - apply A. now apply K.
  - apply B; [exact Sa|]. intro Q. apply H. now apply K.
Qed.
Lemma range_map : forall s l, Forall (in_range (swapped s)) (map swapped l) <-> Forall (in_range s) l.
Proof.
  intros s l. rewrite !Forall_forall. split; intros H c Hc.
  - apply in_range_back. apply H. now apply in_map.
  - apply in_map_iff in Hc. destruct Hc as (x & <- & Hx). now apply in_range_swapped, H.
Qed.
Lemma in_swapped : forall (l : list cell) c, In (swapped c) (map swapped l) <-> In c l.
Proof.
  intros l c. split; intro H; [|now apply in_map]. apply in_map_iff in H. destruct H as (x & E & Hx). apply (f_equal swapped) in E. rewrite !swapped_twice in E. now subst.
Qed.
Lemma nodup_swapped : forall l : list cell, NoDup l -> NoDup (map swapped l).
Proof.
  intros l H. induction H as [|c l N H IH]; cbn [map]; constructor; [|exact IH]. now rewrite in_swapped.
Qed.
Lemma integrate_swapped : forall d r t fuel of oo of' oo' m g g' cb (o : point) cloud cloud', map_range d r t -> (d = 2 \/ d = 3)%nat -> is_order of -> is_order oo -> is_order of' -> is_order oo' ->
  wf d r t g cb -> swapped_map g g' -> storage_ok (gm_data g') -> scan_in d (o, cloud) -> request_ok d r (pc_bounds cloud) -> swapped_cloud cloud cloud' ->
  (forall g1 p, gm_expand_bounds g (pc_bounds cloud) f0 = Ret g1 -> In p (pc_points cloud) -> cell_from_point F32A o (bmin (gm_bounds g1)) r <> cell_from_point F32A p (bmin (gm_bounds g1)) r -> untied fuel o p (bmin (gm_bounds g1)) r) ->
  alike (fun g2 g2' => swapped_map g2 g2' /\ storage_ok (gm_data g2') /\ exists cb2, wf d r t g2 cb2)
    (integrate_point_cloud fuel of oo m g o cloud) (integrate_point_cloud fuel of' oo' m g' (swapped o) cloud').
Proof.
  intros d r t fuel of oo of' oo' m g g' cb o cloud cloud' M Hd Hf Ho Hf' Ho' W SM St (Lo & Ln & Lp) RQ SC U. cbn [fst snd] in Lo, Ln, Lp.
  destruct (expand_swapped d r t g g' cb (pc_bounds cloud) f0 M W SM St RQ) as (g1 & g1' & cb1 & E & E' & W1 & SM1 & St1').
  rewrite <- (cloud_swapped d cloud cloud' Ln Lp SC) in E'. pose proof W1 as [Wr1 Wt1 (L1 & L2 & _) _ _ Wb1 Ws1 Wst1]. pose proof SM1 as (SB & SR & STs & STr & SS & SG & SCh).
  assert (Lb : length (bmin (gm_bounds g1)) = d).
  { rewrite Wb1. unfold bounds_from_cell_bounds. cbn [bmin]. unfold point_from_cell. apply map2_len; [exact L1|]. unfold origin. now rewrite repeat_length. }
  assert (C : cast_rays fuel (swapped o) cloud' (gm_bounds g1') (gm_resolution g1') (max_range m) =
    obind (cast_rays fuel o cloud (gm_bounds g1) (gm_resolution g1) (max_range m)) (fun fo => Ret (map swapped (fst fo), map swapped (snd fo)))).
  { rewrite SR. apply (scan_swapped fuel d); try assumption; [|apply SC|now rewrite SB]. intros p Hp. split; [now apply Lp|]. rewrite Wr1. now apply U. }
  destruct (cast_rays fuel o cloud (gm_bounds g1) (gm_resolution g1) (max_range m)) as [[free occ]| |] eqn:Ec; cbn [obind fst snd] in C.
  - destruct (integrate_split fuel of oo m g g1 o cloud free occ Hf Ho Wst1 E Ec) as [A B].
    destruct (integrate_split fuel of' oo' m g' g1' (swapped o) cloud' _ _ Hf' Ho' St1' E' C) as [A' B']. rewrite SS in A', B'. rewrite !range_map in A', B'.
    pose proof W as [Wr Wt _ _ _ _ _ Wst].
    match type of A with ?X -> _ => destruct (Classical_Prop.classic X) as [F|F] end; [|rewrite (B F), (B' F); exact I].
    destruct (A F) as [g2 E2], (A' F) as [g2' E2']. rewrite E2, E2'. cbn [alike].
    destruct (integrate_spec fuel of oo m g o cloud g2 Hf Ho Wst E2) as (h1 & fr & oc & X1 & X2 & _ & S2 & Sh & Bs & Rs & Ts & Tr & Hit & Miss & Rest & Ch1 & Ch2).
    rewrite E in X1. injection X1 as <-. rewrite Ec in X2. injection X2 as <- <-.
    destruct (integrate_spec fuel of' oo' m g' (swapped o) cloud' g2' Hf' Ho' St E2') as (h1' & fr' & oc' & X1' & X2' & _ & S2' & Sh' & Bs' & Rs' & Ts' & Tr' & Hit' & Miss' & Rest' & Ch1' & Ch2').
    rewrite E' in X1'. injection X1' as <-. rewrite C in X2'. injection X2' as <- <-.
    destruct SM as (QB & QR & QT & QK & QS & QG & QC). destruct (cast_rays_isize _ _ _ _ _ _ _ _ Ec) as [If Io]. rewrite Forall_forall in If, Io.
    split; [|split; [exact S2'|exists cb1]].
    + repeat split; try congruence.
      * intros c Ic. destruct (in_dec (list_eq_dec Z.eq_dec) c occ) as [Y|Y]; [|destruct (in_dec (list_eq_dec Z.eq_dec) c free) as [Z0|Z0]].
        -- destruct (Hit c Y) as (v & V1 & V2). destruct (Hit' (swapped c) (proj2 (in_swapped _ _) Y)) as (v' & V1' & V2'). rewrite (SG c Ic), V1 in V1'. injection V1' as <-. congruence.
        -- destruct (Miss c Z0) as (v & V1 & V2). destruct (Miss' (swapped c) (proj2 (in_swapped _ _) Z0)) as (v' & V1' & V2'). rewrite (SG c Ic), V1 in V1'. injection V1' as <-. congruence.
        -- rewrite (Rest c Ic Y Z0), <- (SG c Ic). apply Rest'; [now apply swapped_Forall| |]; now rewrite in_swapped.
      * destruct (gm_track_changes g) eqn:TC.
        -- destruct (Ch1 eq_refl) as (l & -> & Nl & Il). destruct (Ch1' QK) as (l' & -> & Nl' & Il'). rewrite map_app. apply Permutation_app; [exact QC|].
           apply NoDup_Permutation; [exact Nl'|now apply nodup_swapped|]. intro c. rewrite <- (swapped_twice c), Il', !in_swapped, Il. reflexivity.
        -- rewrite (Ch2 eq_refl), (Ch2' QK). exact QC.
    + destruct W1 as [V1 V2 V3 V4 V5 V6 V7 V8]. constructor; congruence.
  - destruct (gm_track_changes g); rewrite !integrate_unfold; unfold default_cell_value; rewrite E, E'; cbn [obind]; rewrite Ec, C; exact I.
  - destruct (gm_track_changes g); rewrite !integrate_unfold; unfold default_cell_value; rewrite E, E'; cbn [obind]; rewrite Ec, C; exact I.
Qed.
Lemma history_wf : forall d r t fuel of oo of' oo' m, map_range d r t -> (d = 2 \/ d = 3)%nat -> is_order of -> is_order oo -> is_order of' -> is_order oo' ->
  forall scans scans' g g' cb, wf d r t g cb -> swapped_map g g' -> storage_ok (gm_data g') -> Forall (fun s => scan_in d s /\ request_ok d r (pc_bounds (snd s))) scans -> Forall2 swapped_scan scans scans' ->
  (forall before o c after g0 g1 p, scans = before ++ (o, c) :: after -> built fuel of oo m g before = Ret g0 -> gm_expand_bounds g0 (pc_bounds c) f0 = Ret g1 -> In p (pc_points c) ->
    cell_from_point F32A o (bmin (gm_bounds g1)) r <> cell_from_point F32A p (bmin (gm_bounds g1)) r -> untied fuel o p (bmin (gm_bounds g1)) r) ->
  alike swapped_map (built fuel of oo m g scans) (built fuel of' oo' m g' scans').
Proof.
  intros d r t fuel of oo of' oo' m M Hd Hf Ho Hf' Ho' scans. induction scans as [|[o c] scans IH]; intros scans' g g' cb W SM St D S U.
  { inversion S as [Q|]. exact SM. }
  destruct scans' as [|[o' c'] rest']; [inversion S|]. assert (SS : swapped_scan (o, c) (o', c') /\ Forall2 swapped_scan scans rest') by (inversion S; now split). clear S. destruct SS as [[HO HC] SR].
  apply Forall_cons_iff in D. destruct D as [[D1 D2] D]. cbn [fst snd] in *. subst o'. cbn [built].
  pose proof (integrate_swapped d r t fuel of oo of' oo' m g g' cb o c c' M Hd Hf Ho Hf' Ho' W SM St D1 D2 HC (fun g1 p E => U [] o c scans g g1 p eq_refl eq_refl E)) as A.
  destruct (integrate_point_cloud fuel of oo m g o c) as [g2| |] eqn:E, (integrate_point_cloud fuel of' oo' m g' (swapped o) c') as [g2'| |]; cbn [alike obind] in *; try contradiction; try exact I.
  destruct A as (SM2 & St2 & cb2 & W2). apply (IH rest' g2 g2' cb2); try assumption. intros before o2 c2 after g0 h1 p -> Hb. apply (U ((o, c) :: before) o2 c2 after g0 h1 p); [reflexivity|]. cbn [built]. rewrite E. exact Hb.
Qed.
Lemma history_swapped : forall d r t fuel of oo of' oo' m, map_range d r t -> is_order of -> is_order oo -> is_order of' -> is_order oo' ->
  forall scans scans' g g', reachable d r t g -> swapped_map g g' -> storage_ok (gm_data g') -> Forall (fun s => scan_in d s /\ request_ok d r (pc_bounds (snd s))) scans -> Forall2 swapped_scan scans scans' ->
  (forall before o c after g0 g1 p, scans = before ++ (o, c) :: after -> built fuel of oo m g before = Ret g0 -> gm_expand_bounds g0 (pc_bounds c) f0 = Ret g1 -> In p (pc_points c) ->
    cell_from_point F32A o (bmin (gm_bounds g1)) r <> cell_from_point F32A p (bmin (gm_bounds g1)) r -> untied fuel o p (bmin (gm_bounds g1)) r) ->
  alike swapped_map (built fuel of oo m g scans) (built fuel of' oo' m g' scans').
Proof. intros d r t fuel of oo of' oo' m M Hf Ho Hf' Ho' scans scans' g g' R. destruct (wf_of_reachable d r t g M R) as [cb W]. intros. apply (history_wf d r t) with (cb := cb); try assumption. apply M. Qed.
Lemma occupied_swapped : forall m g g' c, swapped_map g g' -> cells_in_isize c -> occupied m g' (swapped c) = occupied m g c.
Proof. intros m g g' c (_ & _ & _ & _ & _ & SG & _) Ic. unfold occupied. now rewrite (SG c Ic). Qed.

Lemma expand_reachable_swapped : forall {A} d r t (g g' : grid_map A) b v, map_range d r t -> reachable d r t g -> swapped_map g g' -> storage_ok (gm_data g') -> request_ok d r b ->
  exists g1 g1', gm_expand_bounds g b v = Ret g1 /\ gm_expand_bounds g' (swapped_box b) v = Ret g1' /\ swapped_map g1 g1' /\ storage_ok (gm_data g1').
Proof.
  intros A d r t g g' b v M R SM St RQ. destruct (wf_of_reachable d r t g M R) as [cb W]. destruct (expand_swapped d r t g g' cb b v M W SM St RQ) as (g1 & g1' & cb1 & E & E' & _ & S1 & S2). eauto 6.
Qed.
(** A new map is its own exchange. *)
Lemma new_swapped : forall {A} d r t (v : A) g, map_range d r t -> gm_new r (bounds_empty d) t v = Ret g -> swapped_map g g /\ storage_ok (gm_data g).
Proof.
  intros A d r t v g M H. destruct (zero_ordered d t) as (O & T0 & N). rewrite (empty_bounds d r) in H by apply M.
  destruct (wf_new d r t (cb_empty d) v g M O T0 N H) as ([Wr Wt Wo Wa Wn Wb Ws Wst] & Tr & Ch & _). split; [|exact Wst].
  assert (Z0 : nd_shape (gm_data g) = repeat 0 d).
  { rewrite Ws. unfold cb_empty, cell_origin. cbn [cmin cmax]. clear. induction d; cbn [repeat map2]; [reflexivity|]. now rewrite IHd. }
  rewrite <- (empty_bounds d r) in Wb by apply M. repeat split.
  - rewrite Wb. unfold swapped_box, bounds_empty. cbn [bmin bmax]. unfold origin. now rewrite swapped_repeat.
  - now rewrite Z0, swapped_repeat.
  - intros c Ic. assert (G : forall x, cells_in_isize x -> gm_get g x = Panic).
    { intros x Ix. apply (gm_get_iff g x Wst Ix). rewrite Z0. intro K. destruct M as (Hd & _). destruct d as [|d]; [lia|]. cbn [repeat] in K. inversion K; lia. }
    rewrite (G c Ic). apply G. now apply swapped_Forall.
  - rewrite Ch. constructor.
Qed.
