(** Worlds with walls. *)
From Coq Require Import ZArith List Bool Reals Lra Lia Permutation.
From Flocq Require Import Core BinarySingleNaN.
From Verif Require Import Base F32 FloatFacts Arith Geom NdArray GridMap RayCaster NoiseModel Spec SpecMap SpecNoise SpecOdds SpecBack SpecMeet SpecNear SpecWorld SpecWall NdProofs MapProofs NoiseProofs OddsProofs ForgetProofs ScaleMapProofs WorldMapProofs WallProofs Examples ExamplesMap ExamplesNoise ExamplesViz ExamplesRay ExamplesShift ExamplesSame ExamplesMeet ExamplesNear ExamplesForget ExamplesWorld.
Open Scope R_scope.

(** ** The scans of C96 in a world with three walls *)
Definition wl_walls (w : cell) : Prop := In w [[2; 0; 1]; [4; 0; 0]; [-2; 0; 1]]%Z.
Lemma wl_near : forall z x, Rabs (x - IZR z) < / 2 -> ZnearestA ((x - 0) / 1) = z.
Proof. intros z x H. replace ((x - 0) / 1) with x by field. apply Znearest_imp. exact H. Qed.
Lemma wl_ends : nearest_cell (world 3) 1 tn_P = [2; 0; 1]%Z /\ nearest_cell (world 3) 1 tn_Q = [4; 0; 0]%Z /\ nearest_cell (world 3) 1 wd_N = [-2; 0; 1]%Z.
Proof.
  unfold nearest_cell, world, tn_P, tn_Q, wd_N. cbn [map2 repeat].
  rewrite (wl_near 2 (2 - / 33554432)), (wl_near 0 0), (wl_near 1 (1 + / 16777216)), (wl_near 4 (4 + / 281474976710656)), (wl_near (-2) (-2)), (wl_near 1 1) by (apply Rabs_lt; lra).
  split; [reflexivity|split; reflexivity].
Qed.
Lemma wl_meets : forall (e : list R) (w : cell) i, meets (world 3) 1 [0; 0; 0] e w -> length e = 3%nat -> length w = 3%nat -> (i < 3)%nat ->
  exists u, 0 <= u <= 1 /\ - / 2 <= u * nth i e 0 - IZR (nth i w 0%Z) <= / 2.
Proof.
  intros e w i [_ (u & U & C)] Le Lw Hi. exists u. split; [exact U|]. specialize (C i ltac:(lia)). destruct e as [|x [|y [|z [|]]]]; try discriminate Le. unfold seg, world in C. cbn [map2 repeat] in C.
  apply Rabs_le_inv in C. destruct i as [|[|[|i]]]; cbn [nth] in *; [..|lia]; lra.
Qed.
Lemma wl_sees : Forall (sees 3 (11 / 4) 1 wl_walls) [wd_1; wd_2].
Proof.
  destruct wl_ends as (EP & EQ & EN).
  assert (G : forall q c, nearest_cell (world 3) 1 q = c -> length q = 3%nat -> wl_walls c ->
    (forall w, wl_walls w -> meets (world 3) 1 [0; 0; 0] q w -> w = c) -> (forall w, beam_passes (11 / 4) (world 3) 1 [0; 0; 0] q w -> ~ wl_walls w) /\
    (beam_arrives (11 / 4) (world 3) 1 [0; 0; 0] q -> wl_walls (nearest_cell (world 3) 1 q))).
  { intros q c E L W H. rewrite E. split; [|intros _; exact W]. intros w (A & B & _) K. apply B. rewrite E. exact (H w K A). }
  repeat apply Forall_cons; try apply Forall_nil; intros q Hq; cbn [fst snd wd_1 wd_2] in *.
  - destruct Hq as [<-|[<-|[]]]; [apply (G _ _ EP)|apply (G _ _ EQ)]; try reflexivity; [now left| |now right; left|].
    + intros w [<-|[<-|[<-|[]]]] A; [reflexivity|exfalso|exfalso].
      * destruct (wl_meets _ _ 0%nat A eq_refl eq_refl ltac:(lia)) as (u & U & I). unfold tn_P in I. cbn [nth] in I. assert (u * (2 - / 33554432) <= 1 * 2) by (apply Rmult_le_compat; lra). lra.
      * destruct (wl_meets _ _ 0%nat A eq_refl eq_refl ltac:(lia)) as (u & U & I). unfold tn_P in I. cbn [nth] in I. assert (0 <= u * (2 - / 33554432)) by (apply Rmult_le_pos; lra). lra.
    + intros w [<-|[<-|[<-|[]]]] A; [exfalso|reflexivity|exfalso].
      * destruct (wl_meets _ _ 2%nat A eq_refl eq_refl ltac:(lia)) as (u & U & I). unfold tn_Q in I. cbn [nth] in I. lra.
      * destruct (wl_meets _ _ 2%nat A eq_refl eq_refl ltac:(lia)) as (u & U & I). unfold tn_Q in I. cbn [nth] in I. lra.
  - destruct Hq as [<-|[]]. apply (G _ _ EN); try reflexivity; [now right; right; left|]. intros w [<-|[<-|[<-|[]]]] A; [exfalso|exfalso|reflexivity].
    + destruct (wl_meets _ _ 0%nat A eq_refl eq_refl ltac:(lia)) as (u & U & I). unfold wd_N in I. cbn [nth] in I. lra.
    + destruct (wl_meets _ _ 0%nat A eq_refl eq_refl ltac:(lia)) as (u & U & I). unfold wd_N in I. cbn [nth] in I. lra.
Qed.
Lemma wl_sm : map_range 3 f1 2 /\ fltb f0 (max_range sm_lidar) = true /\ finite (max_range sm_lidar) /\ real (max_range sm_lidar) <= 1048576 * real f1 /\ real (max_range sm_lidar) = 11 / 4 /\ real f1 = 1.
Proof.
  destruct tn_numbers as (_ & (_ & R1) & _). destruct (quarter sm_m 11 ltac:(vm_compute; reflexivity)) as [F VM]. assert (VL : real (max_range sm_lidar) = 11 / 4) by exact VM.
  rewrite VL, R1. split; [split; [now right|]; split; [exact res_one|lia]|]. split; [vm_compute; reflexivity|]. split; [exact F|]. lra.
Qed.
Lemma wl_first : exists o, map_range 3 f1 2 /\ recorded 3 f1 2 sm_lidar o [wd_1; wd_2] /\ Forall (sees 3 (real (max_range sm_lidar)) (real f1) wl_walls) [wd_1; wd_2] /\
  (signs_ok sm_lidar /\ fle f0 (occupied_threshold_logodds sm_lidar) /\ fltb (occupied_threshold_logodds sm_lidar) (evidence sm_lidar f0 true) = true) /\
  (gm_get (om_grid o) [4; 0; 1] = Ret (f32_lit 85 100) /\ gm_get (om_grid o) [0; 0; 1] = Ret (f32_lit 85 100) /\ gm_get (om_grid o) [2; 0; 0] = Ret (f32_lit (-8) 10) /\ gm_get (om_grid o) [4; 0; 0] = Ret (f32_lit (-4) 10))%Z.
Proof.
  destruct wd_first as (_ & o & _ & _ & _ & R & V). destruct wl_sm as (M & _ & _ & _ & VL & R1). exists o. rewrite VL, R1.
  split; [exact M|]. split; [exact R|]. split; [exact wl_sees|]. split; [|exact V].
  unfold signs_ok, fle. repeat split; vm_compute; reflexivity.
Qed.

(** The scans in the other order. *)
Lemma wl_second : exists o, recorded 3 f1 4 sm_lidar o [wd_2; wd_1] /\ (gm_get (om_grid o) [6; 0; 5] = Ret (f32_lit 85 100) /\ gm_get (om_grid o) [2; 0; 5] = Ret (f32_lit 85 100))%Z.
Proof.
  destruct wd_values as (_ & _ & _ & A & B & C).
  assert (E : match om_new 3 sm_lidar f1 4 with Ret o0 => match gm_expand_bounds (om_grid o0) (pc_bounds wd_b2) f0 with Ret g1 => match om_integrate 3072 as_is as_is o0 sm_b wd_b2 with Ret o1 =>
    match gm_expand_bounds (om_grid o1) (pc_bounds wd_b1) f0 with Ret g2 => match om_integrate 3072 as_is as_is o1 sm_b wd_b1 with Ret o2 =>
      wd_corner (bmin (gm_bounds g1)) [-4; 0; 0]%Z && wd_corner (bmin (gm_bounds g2)) [-4; 0; -4]%Z && wd_same (om_grid o2) [6; 0; 5]%Z (f32_lit 85 100) && wd_same (om_grid o2) [2; 0; 5]%Z (f32_lit 85 100)
    | _ => false end | _ => false end | _ => false end | _ => false end | _ => false end = true) by (vm_compute; reflexivity).
  apply ret_ex in E. destruct E as (o0 & E0 & E). apply ret_ex in E. destruct E as (g1 & G1 & E). apply ret_ex in E. destruct E as (o1 & E1 & E).
  apply ret_ex in E. destruct E as (g2 & G2 & E). apply ret_ex in E. destruct E as (o2 & E2 & E). rewrite !andb_true_iff in E. destruct E as (((W1 & W2) & V1) & V2).
  apply wd_corner_ok in W1, W2. apply wd_same_ok in V1, V2.
  pose proof wd_sizes' as S. change [[2 + / 256; 0; 1]; [4; 0; - / 256]; [-2; / 256; 1 - / 256]] with ([[2 + / 256; 0; 1]; [4; 0; - / 256]] ++ [[-2; / 256; 1 - / 256]]) in S. apply Forall_app in S. destruct S as [S1 S2].
  assert (R1 : records 3 (max_range sm_lidar) f1 (om_grid o0) wd_2 sm_b wd_b2).
  { apply (wd_records (om_grid o0) g1 wd_b2 [wd_N] [[-2; / 256; 1 - / 256]] _ G1 W1); [repeat apply Forall_cons; try apply Forall_nil; apply Rabs_le; lra|vm_compute; reflexivity|reflexivity| |exact S2|].
    - rewrite (proj2 (proj2 wd_points)). exact (Forall2_cons _ _ C (Forall2_nil _)).
    - repeat apply Forall2_cons; try apply Forall2_nil. split; [repeat apply Forall2_cons; try apply Forall2_nil; apply Rabs_le; lra|exact wd_clear_N]. }
  assert (R2 : records 3 (max_range sm_lidar) f1 (om_grid o1) wd_1 sm_b wd_b1).
  { apply (wd_records (om_grid o1) g2 wd_b1 [tn_P; tn_Q] [[2 + / 256; 0; 1]; [4; 0; - / 256]] _ G2 W2); [repeat apply Forall_cons; try apply Forall_nil; apply Rabs_le; lra|vm_compute; reflexivity|reflexivity| |exact S1|].
    - rewrite (proj1 (proj2 wd_points)). exact (Forall2_cons _ _ A (Forall2_cons _ _ B (Forall2_nil _))).
    - assert (O1 : off_by_cells (/ 128) 1 [2 + / 256; 0; 1] tn_P) by (repeat apply Forall2_cons; try apply Forall2_nil; apply Rabs_le; lra).
      assert (O2 : off_by_cells (/ 128) 1 [4; 0; - / 256] tn_Q) by (repeat apply Forall2_cons; try apply Forall2_nil; apply Rabs_le; lra).
      exact (Forall2_cons _ _ (conj O1 tn_clear_P) (Forall2_cons _ _ (conj O2 tn_clear_Q) (Forall2_nil _))). }
  assert (X1 : recorded 3 f1 4 sm_lidar o1 [wd_2]) by (apply (recorded_next _ _ _ _ o0 [] wd_2 3072 as_is as_is sm_b wd_b2); [now apply recorded_new|exact as_is_order|exact as_is_order|exact R1|lia|exact E1]).
  exists o2. split; [|split; [exact V1|exact V2]].
  apply (recorded_next _ _ _ _ o1 [wd_2] wd_1 3072 as_is as_is sm_b wd_b1); [exact X1|exact as_is_order|exact as_is_order|exact R2|lia|exact E2].
Qed.

(** ** A wall that is put up or taken down: near in front of the cell two steps away, far one step behind it *)
Definition wl_near_scan : exact_scan := ([0; 0; 0], [[2; 0; 0]]).
Definition wl_far_scan : exact_scan := ([0; 0; 0], [[3; 0; 0]]).
Definition wl_near_cloud : matrix := mkMatrix 3 1 [f32_lit 2 1; f0; f0].
Definition wl_far_cloud : matrix := mkMatrix 3 1 [f32_lit 3 1; f0; f0].
Definition wl_scan (b : bool) : exact_scan := if b then wl_near_scan else wl_far_scan.
Definition wl_cloud (b : bool) : matrix := if b then wl_near_cloud else wl_far_cloud.
Definition wl_wall (b : bool) (w : cell) : Prop := w = (if b then [2; 0; 0] else [3; 0; 0])%Z.
Definition wl_x (b : bool) : R := if b then 2 else 3.
Definition wl_history (bs : list bool) : list exact_scan := wl_far_scan :: map wl_scan bs.

Lemma wl_axis : forall (u x : R) (y : cell) (h : R), 0 <= u <= 1 -> 0 <= x <= 3 -> length y = 3%nat -> 0 <= h < / 2 ->
  (forall i, (i < length y)%nat -> Rabs (nth i (seg [0; 0; 0] [x; 0; 0] u) 0 - (nth i [0; 0; 0] 0 + IZR (nth i y 0%Z) * 1)) <= / 2 + h) ->
  dist (cell_centre [0; 0; 0] 1 y) [0; 0; 0] <= 3.
Proof.
  intros u x y h U X L Hh G. destruct y as [|k [|l [|n [|]]]]; try discriminate L.
  pose proof (G 0%nat ltac:(cbn; lia)) as G0. pose proof (G 1%nat ltac:(cbn; lia)) as G1. pose proof (G 2%nat ltac:(cbn; lia)) as G2. clear G.
  unfold seg in *. cbn [map2 nth] in *. apply Rabs_le_inv in G0, G1, G2.
  assert (P : 0 <= u * (x - 0)) by (apply Rmult_le_pos; lra). assert (Q : u * (x - 0) <= 1 * 3) by (apply Rmult_le_compat; lra).
  assert (K1 : (-1 < k)%Z) by (apply lt_IZR; lra). assert (K2 : (k < 4)%Z) by (apply lt_IZR; lra).
  assert (L1 : (-1 < l)%Z) by (apply lt_IZR; lra). assert (L2 : (l < 1)%Z) by (apply lt_IZR; lra). assert (N1 : (-1 < n)%Z) by (apply lt_IZR; lra). assert (N2 : (n < 1)%Z) by (apply lt_IZR; lra).
  assert (l = 0%Z) by lia. assert (n = 0%Z) by lia. subst l n. assert (A : 0 <= IZR k) by (apply IZR_le; lia). assert (B : IZR k <= 3) by (apply IZR_le; lia).
  unfold dist, cell_centre. cbn [map2 fold_right]. rewrite !Rmult_1_r. rewrite <- (sqrt_square 3) by lra. apply sqrt_le_1_alt. assert (IZR k * IZR k <= 3 * 3) by (apply Rmult_le_compat; lra). lra.
Qed.
Lemma wl_clear : forall b M, 4 <= M -> clear_segment M [0; 0; 0] 1 [0; 0; 0] [wl_x b; 0; 0].
Proof.
  intros b M HM. split; [exact zero_borders|]. split; [|split].
  - intros i k Hi; rewrite Rmult_1_r; destruct i as [|[|[|i]]]; [..|cbn in Hi; lia]; cbn [nth].
    + destruct b; unfold wl_x; [match goal with |- _ <= Rabs ?x => replace x with (2 - / 2 - IZR k) by lra end; apply (off_by _ _ 1); lra|match goal with |- _ <= Rabs ?x => replace x with (3 - / 2 - IZR k) by lra end; apply (off_by _ _ 2); lra].
    + match goal with |- _ <= Rabs ?x => replace x with (- / 2 - IZR k) by lra end. apply (off_by _ _ (-1)); lra.
    + match goal with |- _ <= Rabs ?x => replace x with (- / 2 - IZR k) by lra end. apply (off_by _ _ (-1)); lra.
  - intros u i j k l Hu Hi Hj N D1 D2. exfalso. destruct i as [|[|[|i]]], j as [|[|[|j]]]; cbn [length] in *; try lia; cbn [nth] in *; lra.
  - intros x u L Hu G. left. assert (D : dist (cell_centre [0; 0; 0] 1 x) [0; 0; 0] <= 3).
    { apply (wl_axis u (wl_x b) x (/ 8) Hu); [destruct b; unfold wl_x; lra|exact L|lra|]. intros i Hi. specialize (G i Hi). rewrite Rmult_1_r in *. lra. }
    lra.
Qed.
Lemma wl_no_limit : forall b M y, 4 <= M -> ~ too_long M [0; 0; 0] 1 [0; 0; 0] [wl_x b; 0; 0] y.
Proof.
  intros b M y HM ((L & u & U & C) & _ & _ & D). assert (D' : dist (cell_centre [0; 0; 0] 1 y) [0; 0; 0] <= 3).
  { apply (wl_axis u (wl_x b) y 0 U); [destruct b; unfold wl_x; lra|exact L|lra|]. intros i Hi. specialize (C i Hi). lra. }
  lra.
Qed.
Lemma wl_end : forall b, nearest_cell [0; 0; 0] 1 [wl_x b; 0; 0] = (if b then [2; 0; 0] else [3; 0; 0])%Z.
Proof. intros [|]; unfold nearest_cell, wl_x; cbn [map2]; rewrite (wl_near 0 0) by (apply Rabs_lt; lra); [rewrite (wl_near 2 2) by (apply Rabs_lt; lra)|rewrite (wl_near 3 3) by (apply Rabs_lt; lra)]; reflexivity. Qed.
Lemma wl_scan_eq : forall b, wl_scan b = ([0; 0; 0], [[wl_x b; 0; 0]]). Proof. intros [|]; reflexivity. Qed.

(** What the scans say about the cell two steps away. *)
Lemma wl_verdict : forall b M, 4 <= M -> verdict 3 M 1 [2; 0; 0]%Z (wl_scan b) (Some b).
Proof.
  intros b M HM. rewrite wl_scan_eq. destruct b; unfold verdict.
  - exists [wl_x true; 0; 0]. split; [now left|]. split; [symmetry; exact (wl_end true)|]. intro y. now apply wl_no_limit.
  - split.
    + exists [wl_x false; 0; 0]. split; [now left|]. cbn [fst]. change (world 3) with [0; 0; 0]. split; [|split].
      * split; [reflexivity|]. exists (2 / 3). split; [lra|]. intros i Hi. unfold seg, wl_x. destruct i as [|[|[|i]]]; [..|cbn in Hi; lia]; cbn [map2 nth]; apply Rabs_le; lra.
      * rewrite wl_end. discriminate.
      * intros y K. elim (wl_no_limit false M y HM K).
    + intros (q & [<-|[]] & E & _). change (world 3) with [0; 0; 0] in E. rewrite wl_end in E. discriminate E.
Qed.
Lemma wl_sees' : forall b M, sees 3 M 1 (wl_wall b) (wl_scan b).
Proof.
  intros b M q Hq. rewrite wl_scan_eq in *. cbn [fst snd] in *. destruct Hq as [<-|[]]. change (world 3) with [0; 0; 0]. split.
  - intros w (_ & N & _) K. apply N. rewrite wl_end. exact K.
  - intros _. rewrite wl_end. reflexivity.
Qed.

(** The box of the map after the first scan; the other clouds lie inside. *)
Definition wl_box : bounds := match gm_new f1 (bounds_empty 3) 2 f0 with Ret g0 => match gm_expand_bounds g0 (pc_bounds wl_far_cloud) f0 with Ret g1 => gm_bounds g1 | _ => bounds_empty 3 end | _ => bounds_empty 3 end.
Definition wl_stays (b : bool) : bool :=
  match bounds_discretized (pc_bounds (wl_cloud b)) f1 true with Ret db => match cb_discretized (cb_from_bounds (bounds_enclosing wl_box db) f1) 2 with Ret n => cb_eqb n (cb_from_bounds wl_box f1) | _ => false end | _ => false end.
Lemma wl_expand : forall b (g : grid_map f32), gm_bounds g = wl_box -> gm_resolution g = f1 -> gm_tile_size g = 2%Z -> gm_expand_bounds g (pc_bounds (wl_cloud b)) f0 = Ret g.
Proof.
  intros b g B R T. assert (S : wl_stays b = true) by (destruct b; vm_compute; reflexivity). unfold wl_stays in S. apply ret_ex in S. destruct S as (db & E1 & S). apply ret_ex in S. destruct S as (n & E2 & S).
  unfold gm_expand_bounds. rewrite R, E1. cbn [obind]. rewrite B, T, E2. cbn [obind]. rewrite S. reflexivity.
Qed.
Lemma wl_points : forall b, pc_points (wl_cloud b) = [[f32_lit (if b then 2 else 3) 1; f0; f0]].
Proof. intros [|]; reflexivity. Qed.
Lemma wl_whole : forall b : bool, whole [f32_lit (if b then 2 else 3) 1; f0; f0] [wl_x b; 0; 0].
Proof.
  assert (K : forall x n v, steps (-25) x = Some n -> IZR n / 33554432 = v -> finite x /\ real x = v) by (intros x n v H <-; exact (fine x n H)).
  destruct tn_numbers as (A & B & C & _). intros [|].
  - exact (Forall2_cons _ _ C (Forall2_cons _ _ A (Forall2_cons _ _ A (Forall2_nil _)))).
  - assert (D : finite (f32_lit 3 1) /\ real (f32_lit 3 1) = 3) by (apply (K _ 100663296%Z); [vm_compute; reflexivity|lra]).
    exact (Forall2_cons _ _ D (Forall2_cons _ _ A (Forall2_cons _ _ A (Forall2_nil _)))).
Qed.
Lemma wl_records : forall b (m : f32) g g1, 4 <= real m -> gm_expand_bounds g (pc_bounds (wl_cloud b)) f0 = Ret g1 -> gm_bounds g1 = wl_box -> records 3 m f1 g (wl_scan b) sm_b (wl_cloud b).
Proof.
  intros b m g g1 HM E B. destruct tn_values as (O & _). destruct tn_numbers as (_ & (_ & R1) & _). pose proof (wl_whole b) as W.
  assert (WS : Forall (fun v => Rabs v <= 5) [wl_x b; 0; 0]) by (repeat apply Forall_cons; try apply Forall_nil; destruct b; unfold wl_x; apply Rabs_le; lra).
  rewrite wl_scan_eq. split; [reflexivity|]. split; [|split].
  - apply cloud_request; [exact res_one|destruct b; vm_compute; reflexivity|destruct b; reflexivity|]. rewrite wl_points. intros p [<-|[]]. exact (values_within _ _ (2 ^ 18) ltac:(lia) W WS).
  - cbn [fst]. rewrite (values_reals _ _ O), R1. repeat apply Forall2_cons; try apply Forall2_nil; apply Rabs_le; lra.
  - intros g2 E2. assert (g2 = g1) by congruence. subst g2. cbn [fst snd]. rewrite R1, B, wl_points. apply Forall2_cons; [|apply Forall2_nil].
    assert (WB : whole (bmin wl_box) [IZR 0; IZR 0; IZR 0]) by (apply wd_corner_ok; vm_compute; reflexivity).
    split; [reflexivity|]. split; [|split].
    + apply (wd_short _ _ _ _ W WB WS); [repeat apply Forall_cons; try apply Forall_nil; rewrite Rabs_R0; lra| |reflexivity].
      repeat apply Forall_cons; try apply Forall_nil; [right; destruct b; unfold wl_x; rewrite Rabs_pos_eq; lra|now left|now left].
    + rewrite (values_reals _ _ W). repeat apply Forall2_cons; try apply Forall2_nil; (match goal with |- Rabs ?x <= _ => replace x with 0 by ring end); rewrite Rabs_R0; lra.
    + exact (wl_clear b _ HM).
Qed.

Lemma integrated_bounds : forall fuel of oo o origin cloud o', om_integrate fuel of oo o origin cloud = Ret o' -> exists g1, gm_expand_bounds (om_grid o) (pc_bounds cloud) f0 = Ret g1 /\ gm_bounds (om_grid o') = gm_bounds g1.
Proof.
  intros fuel of oo o origin cloud o' E. unfold om_integrate in E. destruct (integrate_point_cloud fuel of oo (om_model o) (om_grid o) origin cloud) as [g'| |] eqn:G; try discriminate E. cbn [obind] in E. injection E as <-.
  exact (integrate_bounds _ _ _ _ _ _ _ _ G).
Qed.
Lemma wl_next : forall m o L b g1, fltb f0 (max_range m) = true -> finite (max_range m) -> 4 <= real (max_range m) <= 1048576 * real f1 -> recorded 3 f1 2 m o L ->
  gm_expand_bounds (om_grid o) (pc_bounds (wl_cloud b)) f0 = Ret g1 -> gm_bounds g1 = wl_box ->
  exists o', recorded 3 f1 2 m o' (L ++ [wl_scan b]) /\ gm_bounds (om_grid o') = wl_box.
Proof.
  intros m o L b g1 Pm Fm Bm H E B. pose proof (wl_records b _ _ _ (proj1 Bm) E B) as R. destruct (recorded_facts _ _ _ _ _ _ H) as [Em Rg].
  assert (M3 : map_range 3 f1 2) by exact (proj1 wl_sm).
  assert (R2 : reachable 3 f1 2 g1) by (eapply reach_expand; [exact Rg|exact (proj1 (proj2 R))|exact E]).
  destruct tn_numbers as (_ & (_ & R1) & _).
  destruct (recorded_ends 3 f1 2 m o L (wl_scan b) 3072 as_is as_is sm_b (wl_cloud b) M3 Pm Fm (proj2 Bm) H as_is_order as_is_order R ltac:(lia) g1 (cb_from_bounds (gm_bounds g1) f1) E (covers_cells_computed _ 3 f1 2 g1 M3 R2)) as [o' E'].
  - rewrite B, R1, wl_scan_eq. cbn [fst]. change [0; 0; 0] with (map IZR [0; 0; 0]%Z). change (world 3) with (repeat 0 (length [0; 0; 0]%Z)). rewrite whole_cell. apply in_boxb_iff. vm_compute. reflexivity.
  - intros q Hq. rewrite wl_scan_eq in Hq. cbn [snd] in Hq. destruct Hq as [<-|[]]. rewrite B, R1. change (world 3) with [0; 0; 0]. rewrite wl_end. apply in_boxb_iff. destruct b; vm_compute; reflexivity.
  - exists o'. split; [apply (recorded_next _ _ _ _ o L (wl_scan b) 3072 as_is as_is sm_b (wl_cloud b)); [exact H|exact as_is_order|exact as_is_order|exact R|lia|exact E']|].
    destruct (integrated_bounds _ _ _ _ _ _ _ E') as (g2 & E2 & Q). rewrite Q, <- B. f_equal. congruence.
Qed.
Lemma wl_recorded : forall m bs, fltb f0 (max_range m) = true -> finite (max_range m) -> 4 <= real (max_range m) <= 1048576 * real f1 ->
  exists o, recorded 3 f1 2 m o (wl_history bs) /\ gm_bounds (om_grid o) = wl_box.
Proof.
  intros m bs Pm Fm Bm. induction bs as [|b bs IH] using rev_ind.
  - assert (Q : match gm_new f1 (bounds_empty 3) 2 default_cell_value with Ret g0 => match gm_expand_bounds g0 (pc_bounds wl_far_cloud) f0 with Ret g1 => true | _ => false end | _ => false end = true) by (vm_compute; reflexivity).
    apply ret_ex in Q. destruct Q as (g0 & E0 & Q). apply ret_ex in Q. destruct Q as (g1 & E1 & _).
    assert (H : recorded 3 f1 2 m (mkOcc g0 m) []) by (apply recorded_new; unfold om_new; rewrite E0; reflexivity).
    apply (wl_next m (mkOcc g0 m) [] false g1 Pm Fm Bm H E1). unfold wl_box. change default_cell_value with f0 in E0. rewrite E0, E1. reflexivity.
  - destruct IH as (o & H & B). destruct (recorded_facts _ _ _ _ _ _ H) as [_ Rg].
    pose proof (covers_cells_computed _ 3 f1 2 (om_grid o) (proj1 wl_sm) Rg) as W.
    destruct (wl_next m o (wl_history bs) b (om_grid o) Pm Fm Bm H) as (o' & H' & B').
    + apply wl_expand; [exact B|exact (cc_resolution _ _ _ _ _ W)|exact (cc_tile_size _ _ _ _ _ W)].
    + exact B.
    + exists o'. split; [|exact B']. unfold wl_history in *. rewrite map_app. exact H'.
Qed.

Lemma wl_verdicts : forall bs M, 4 <= M -> Forall2 (verdict 3 M 1 [2; 0; 0]%Z) (map wl_scan bs) (map Some bs).
Proof. intros bs M HM. induction bs as [|b bs IH]; [constructor|]. constructor; [now apply wl_verdict|exact IH]. Qed.
Lemma wl_all_see : forall (b : bool) n M, Forall (sees 3 M 1 (wl_wall b)) (map wl_scan (repeat b n)).
Proof. intros b n M. apply Forall_forall. intros s H. apply in_map_iff in H. destruct H as (b' & <- & H). apply repeat_spec in H. subst b'. apply wl_sees'. Qed.
Lemma wl_repeat : forall (b : bool) n, map Some (repeat b n) = repeat (Some b) n.
Proof. intros b n. induction n as [|n IH]; [reflexivity|]. cbn [repeat map]. now rewrite IH. Qed.
(** The cell two steps away: a wall for [i] scans and then not for [j], or the other way round. *)
Lemma wl_changed : forall m b i j, fltb f0 (max_range m) = true -> finite (max_range m) -> 4 <= real (max_range m) <= 1048576 * real f1 ->
  (exists o, recorded 3 f1 2 m o (wl_history (repeat (negb b) i) ++ map wl_scan (repeat b j))) /\
  Forall (sees 3 (real (max_range m)) (real f1) (wl_wall b)) (map wl_scan (repeat b j)) /\
  Forall2 (verdict 3 (real (max_range m)) (real f1) [2; 0; 0]%Z) (map wl_scan (repeat b j)) (repeat (Some b) j).
Proof.
  intros m b i j Pm Fm Bm. destruct tn_numbers as (_ & (_ & R1) & _). split; [|rewrite R1; split; [apply wl_all_see|rewrite <- wl_repeat; apply wl_verdicts; lra]].
  destruct (wl_recorded m (repeat (negb b) i ++ repeat b j) Pm Fm Bm) as (o & H & _). exists o. unfold wl_history in *. rewrite map_app in H. exact H.
Qed.

(** A model with the numbers of [sm_lidar] and a longer range. *)
Definition wl_lidar : lidar := mkLidar (f32_lit 85 100) (f32_lit (-4) 10) (f32_lit (-2) 1) (f32_lit 35 10) f0 (f32_lit 8 1).
Lemma wl_numbers : (map_range 3 f1 2 /\ fltb f0 (max_range wl_lidar) = true /\ finite (max_range wl_lidar) /\ 4 <= real (max_range wl_lidar) <= 1048576 * real f1) /\ signs_ok wl_lidar /\ moderate_model wl_lidar /\
  counts wl_lidar (- real (miss_logodds wl_lidar)) /\ counts wl_lidar (real (hit_logodds wl_lidar)) /\
  (let thr := real (occupied_threshold_logodds wl_lidar) in real (min_logodds wl_lidar) <= thr /\ real (max_logodds wl_lidar) - thr <= INR 9 * (1023 / 1024 * - real (miss_logodds wl_lidar)) /\
   thr < real (max_logodds wl_lidar) /\ thr - real (min_logodds wl_lidar) < INR 3 * (1023 / 1024 * real (hit_logodds wl_lidar))).
Proof.
  destruct tn_numbers as (_ & (_ & R1) & _).
  assert (K : forall x n v, steps (-25) x = Some n -> IZR n / 33554432 = v -> finite x /\ real x = v) by (intros x n v H <-; exact (fine x n H)).
  assert (A : finite (f32_lit 85 100) /\ 84 / 100 <= real (f32_lit 85 100) <= 86 / 100) by (split; [reflexivity|]; unfold real; closed_float (f32_lit 85 100); rewrite V; lra).
  assert (B : finite (f32_lit (-4) 10) /\ - (401 / 1000) <= real (f32_lit (-4) 10) <= - (399 / 1000)) by (split; [reflexivity|]; unfold real; closed_float (f32_lit (-4) 10); rewrite V; lra).
  assert (C : finite (f32_lit (-2) 1) /\ real (f32_lit (-2) 1) = -2) by (apply (K _ (-67108864)%Z); [vm_compute; reflexivity|lra]).
  assert (D : finite (f32_lit 35 10) /\ real (f32_lit 35 10) = 7 / 2) by (apply (K _ 117440512%Z); [vm_compute; reflexivity|lra]).
  assert (E : finite (f32_lit 8 1) /\ real (f32_lit 8 1) = 8) by (apply (K _ 268435456%Z); [vm_compute; reflexivity|lra]).
  assert (Z : real f0 = 0) by reflexivity. assert (BP : 8 <= bpow radix2 100) by (change 8 with (bpow radix2 3); apply bpow_le; lia).
  unfold counts, moderate_model, wl_lidar. cbn [max_range miss_logodds hit_logodds min_logodds max_logodds occupied_threshold_logodds]. rewrite R1, Z, (proj2 C), (proj2 D), (proj2 E).
  cbn [INR]. rewrite (Rabs_left (-2)), (Rabs_pos_eq (7 / 2)) by lra.
  split; [split; [exact (proj1 wl_sm)|split; [vm_compute; reflexivity|split; [reflexivity|lra]]]|]. split; [unfold signs_ok, fle; repeat split; vm_compute; reflexivity|]. split; [|lra].
  repeat apply Forall_cons; try apply Forall_nil; (split; [first [exact (proj1 A)|exact (proj1 B)|exact (proj1 C)|exact (proj1 D)|reflexivity]|]); apply Rabs_le; rewrite ?Z, ?(proj2 C), ?(proj2 D); lra.
Qed.
Lemma wl_model : (forall b i j, (exists o, recorded 3 f1 2 wl_lidar o (wl_history (repeat (negb b) i) ++ map wl_scan (repeat b j))) /\
  Forall (sees 3 (real (max_range wl_lidar)) (real f1) (wl_wall b)) (map wl_scan (repeat b j)) /\
  Forall2 (verdict 3 (real (max_range wl_lidar)) (real f1) [2; 0; 0]%Z) (map wl_scan (repeat b j)) (repeat (Some b) j)) /\
  seen false (repeat (Some false) 9) = 9%nat /\ seen true (repeat (Some true) 3) = 3%nat.
Proof. destruct wl_numbers as ((_ & A & B & C) & _). split; [intros b i j; exact (wl_changed wl_lidar b i j A B C)|split; reflexivity]. Qed.
Lemma wl_default : ln_accurate near_ln /\ map_range 3 f1 2 /\ real DEFAULT_MAX_RANGE <= 1048576 * real f1 /\ forall m b i j, max_range m = DEFAULT_MAX_RANGE ->
  (exists o, recorded 3 f1 2 m o (wl_history (repeat (negb b) i) ++ map wl_scan (repeat b j))) /\
  Forall (sees 3 (real DEFAULT_MAX_RANGE) (real f1) (wl_wall b)) (map wl_scan (repeat b j)) /\
  Forall2 (verdict 3 (real DEFAULT_MAX_RANGE) (real f1) [2; 0; 0]%Z) (map wl_scan (repeat b j)) (repeat (Some b) j).
Proof.
  destruct tn_numbers as (_ & (_ & R1) & _).
  assert (A : 4 <= real DEFAULT_MAX_RANGE <= 1048576 * real f1) by (rewrite R1; rewrite sixty; lra).
  split; [exact near_ln_accurate|]. split; [exact (proj1 wl_sm)|]. split; [exact (proj2 A)|]. intros m b i j Em. rewrite <- Em. apply wl_changed; rewrite Em; [vm_compute; reflexivity|reflexivity|exact A].
Qed.
