(** What a cell number stands for after a further cloud. *)
From Coq Require Import ZArith List Bool Reals Lra Lia Permutation.
From Flocq Require Import Core BinarySingleNaN.
From Verif Require Import Base F32 FloatFacts RoundError Arith Geom NdArray GridMap RayCaster NoiseModel Spec SpecMap SpecNoise MathProofs ConverterProofs GeomProofs BoundsProofs CloudProofs NdProofs GridProofs ExpandProofs UnalignedProofs MapProofs BuiltProofs NoiseProofs.
Open Scope Z_scope.

Lemma near_unique : forall r (w w' : list Z) p, (0 < real r)%R -> near_cell r w p -> near_cell r w' p -> w = w'.
Proof.
  intros r w w' p P H. unfold near_cell in *. revert w'. induction H as [|k x w p [_ Hx] H IH]; intros w' H'; inversion_clear H' as [|k' ? ? ? [_ Hk] H'']; [reflexivity|].
  f_equal; [|now apply IH]. apply Rabs_le_inv in Hx, Hk.
  assert (A : (IZR k < IZR k' + 1)%R) by (apply Rmult_lt_reg_r with (real r); [assumption|]; nra).
  assert (B : (IZR k' < IZR k + 1)%R) by (apply Rmult_lt_reg_r with (real r); [assumption|]; nra).
  change 1%R with (IZR 1) in A, B. rewrite <- plus_IZR in A, B. apply lt_IZR in A, B. lia.
Qed.

Lemma add_cancel : forall (a b c : list Z), length a = length c -> length b = length c -> map2 Z.add a c = map2 Z.add b c -> a = b.
Proof.
  induction a as [|x a IH]; intros [|y b] [|z c] L1 L2 E; try discriminate; [reflexivity|]. cbn [map2] in E. injection E as E1 E2.
  f_equal; [lia|]. apply (IH b c); [now injection L1|now injection L2|exact E2].
Qed.

Lemma index_exactly : forall d r t fuel of oo m g cb o cloud g' db c, map_range d r t -> reachable d r t g -> covers_cells d r t g cb ->
  is_order of -> is_order oo -> request_ok d r (pc_bounds cloud) ->
  bounds_discretized (pc_bounds cloud) r true = Ret db -> in_range (nd_shape (gm_data g)) c ->
  integrate_point_cloud fuel of oo m g o cloud = Ret g' ->
  exists cb', covers_cells d r t g' cb' /\ in_range (nd_shape (gm_data g')) c /\
    near_cell r (map2 Z.add (cmin cb) c) (gm_point_from_cell g c) /\
    near_cell r (map2 Z.add (cmin cb') c) (gm_point_from_cell g' c) /\
    (gm_point_from_cell g' c = gm_point_from_cell g c <-> Forall2 Z.le (cmin cb) (cmin (cells_between r db))).
Proof.
  intros d r t fuel of oo m g cb o cloud g' db c M H C Hf Ho RQ Edb I E. pose proof (covers_wf d r t g cb M H C) as W.
  destruct (integrate_spec fuel of oo m g o cloud g' Hf Ho (wf_storage _ _ _ _ _ W) E) as (g1 & free & occ & E1 & _ & _ & St' & Sh & B & R & Tz & _).
  destruct (expand_step d r t g cb (pc_bounds cloud) f0 M W RQ) as (db' & g2 & cb' & u & Edb' & E1' & W' & [U1 U2] & T1 & T2 & SD & SUB & _).
  assert (g2 = g1) by congruence. assert (db' = db) by congruence. subst g2 db'. clear E1' Edb'.
  destruct (disc_near d r (pc_bounds cloud) db (proj1 (proj2 M)) RQ Edb) as ((D1 & D2 & D3) & _ & _ & _).
  pose proof W as [Wr Wt Wo Wa Wn Wb Ws _]. pose proof W' as [Wr' Wt' Wo' Wa' Wn' Wb' Ws' _].
  assert (W'' : wf d r t g' cb') by (constructor; try assumption; congruence).
  pose proof (wf_covers _ _ _ _ _ M W'') as C'. exists cb'. split; [exact C'|].
  pose proof (proj1 (proj2 M)) as HR. pose proof (res_ok_pos r HR) as P.
  assert (NE : cb <> cb_empty d). { intros ->. rewrite Ws in I. revert I. apply empty_no_cells. apply M. }
  specialize (U2 NE). subst u. cbn [cmin cmax] in *.
  assert (SC : sub_cells cb cb') by (destruct SUB; [contradiction|assumption]).
  assert (I' : in_range (nd_shape (gm_data g')) c).
  { rewrite Sh, Ws'. rewrite Ws in I. destruct SC as [S1 S2]. clear -I S1 S2. unfold in_range in *. revert c I. 
    revert S1 S2. generalize (cmin cb) (cmax cb) (cmin cb') (cmax cb'). intros lo hi lo' hi' S1 S2. revert hi hi' S2.
    induction S1 as [|x y l l' Hx S1 IH]; intros hi hi' S2 c I.
    - destruct S2; cbn [map2] in *; exact I.
    - destruct S2 as [|a b hi hi' Ha S2]; cbn [map2] in *; [exact I|]. inversion I; subst. constructor; [lia|]. eapply IH; eassumption. }
  destruct (disc_finite d r (pc_bounds cloud) db HR RQ Edb) as [F3 F4].
  rewrite (cells_map r db F3 F4). rewrite <- (from_bounds_map d db r HR D1 D2).
  pose proof (cells_near d r t g cb c M W I) as Nc. pose proof (cells_near d r t g' cb' c M W'' I') as Nc'.
  split; [exact I'|]. split; [exact Nc|]. split; [exact Nc'|].
  assert (LR : length (cmin (cb_from_bounds db r)) = d).
  { rewrite (from_bounds_map d db r HR D1 D2). cbn [cmin]. rewrite map_length. exact D1. }
  destruct Wo as (L1 & L2 & O). destruct Wo' as (L1' & L2' & O').
  split.
  - intros EP. rewrite EP in Nc'.
    assert (Lc : length c = d).
    { unfold in_range in I. rewrite Ws in I. apply Forall2_length in I. unfold cell in *. rewrite map2_length', L1, L2, Nat.min_id in I. congruence. }
    assert (EC : cmin cb = cmin cb').
    { apply (add_cancel _ _ c); [unfold cell in *; congruence|unfold cell in *; congruence|]. exact (near_unique r _ _ _ P Nc Nc'). }
    rewrite EC. apply SD.
  - intros LE. rewrite (min_id _ _ LE) in T1. assert (EC : cmin cb' = cmin cb) by (apply (aligned_fix t); [destruct M; lia|apply Wa|now left]).
    unfold gm_point_from_cell. f_equal; [|congruence].
    rewrite B, Wb, Wb', !(bfc_map d) by (try assumption; repeat split; assumption). cbn [bmin]. now rewrite EC.
Qed.
