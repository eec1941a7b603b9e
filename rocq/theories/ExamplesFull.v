(** The scans of C96 and C97 taken without a length limit. *)
From Coq Require Import ZArith List Bool Reals Lra Lia Permutation.
From Flocq Require Import Core BinarySingleNaN.
From Verif Require Import Base F32 FloatFacts Arith Geom NdArray GridMap RayCaster NoiseModel Spec SpecMap SpecNoise SpecOdds SpecBack SpecMeet SpecNear SpecWorld SpecWall NdProofs MapProofs NoiseProofs MoveProofs OddsProofs ForgetProofs ScaleMapProofs WorldMapProofs WallProofs SpecFull FullProofs Examples ExamplesMap ExamplesNoise ExamplesViz ExamplesRay ExamplesShift ExamplesSame ExamplesMeet ExamplesNear ExamplesForget ExamplesWorld ExamplesWall.
Open Scope R_scope.

Definition fu_lidar : lidar := with_limit sm_lidar f0.
Definition fu_far : lidar := with_limit sm_lidar (far_limit f1).

Lemma records_full : forall d m r g s o cloud, records d m r g s o cloud -> full_records d r g s o cloud.
Proof.
  intros d m r g s o cloud (Lo & RQ & Co & H). split; [exact Lo|]. split; [exact RQ|]. split; [exact Co|]. intros g1 E. specialize (H g1 E). revert H. apply Forall2_imp.
  intros q p (Lp & HS & Cp & BO & BE & NC & _). repeat (split; [assumption|]). exact NC.
Qed.

(** Two clouds integrated one after the other. *)
Definition fu_run (t : Z) (c1 c2 : matrix) (k l : list Z) (U V : grid_map f32 -> bool) : bool :=
  match om_new 3 fu_lidar f1 t with Ret o0 => match gm_expand_bounds (om_grid o0) (pc_bounds c1) f0 with Ret g1 => match om_integrate 3072 as_is as_is o0 sm_b c1 with Ret o1 =>
    match gm_expand_bounds (om_grid o1) (pc_bounds c2) f0 with Ret g2 => match om_integrate 3072 as_is as_is o1 sm_b c2 with Ret o2 =>
      wd_corner (bmin (gm_bounds g1)) k && wd_corner (bmin (gm_bounds g2)) l && U g2 && V (om_grid o2)
    | _ => false end | _ => false end | _ => false end | _ => false end | _ => false end.
Definition fu_ok (c : matrix) (qs ls : list (list R)) : Prop :=
  matrix_ok c /\ nrows c = 3%nat /\ Forall2 whole (pc_points c) ls /\ sized ls /\ Forall2 (fun q l => off_by_cells (/ 128) 1 l q /\ clear_segment (11 / 4) [0; 0; 0] 1 [0; 0; 0] q) qs ls.
Lemma fu_two : forall t c1 c2 qs1 qs2 ls1 ls2 k1 k2 k3 l1 l2 l3 (U V : grid_map f32 -> bool), fu_ok c1 qs1 ls1 -> fu_ok c2 qs2 ls2 ->
  Forall (fun z => (-5 <= z <= 5)%Z) [k1; k2; k3] -> Forall (fun z => (-5 <= z <= 5)%Z) [l1; l2; l3] -> fu_run t c1 c2 [k1; k2; k3] [l1; l2; l3] U V = true ->
  exists o1 g2 o2, full_recorded 3 f1 t fu_lidar o1 [([0; 0; 0], qs1)] /\ full_records 3 f1 (om_grid o1) ([0; 0; 0], qs2) sm_b c2 /\ om_integrate 3072 as_is as_is o1 sm_b c2 = Ret o2 /\
    full_recorded 3 f1 t fu_lidar o2 [([0; 0; 0], qs1); ([0; 0; 0], qs2)] /\ V (om_grid o2) = true /\ gm_expand_bounds (om_grid o1) (pc_bounds c2) f0 = Ret g2 /\ U g2 = true.
Proof.
  intros t c1 c2 qs1 qs2 ls1 ls2 k1 k2 k3 l1 l2 l3 U V (MO1 & NR1 & P1 & S1 & O1) (MO2 & NR2 & P2 & S2 & O2) KK LL E. unfold fu_run in E.
  apply ret_ex in E. destruct E as (o0 & E0 & E). apply ret_ex in E. destruct E as (g1 & G1 & E). apply ret_ex in E. destruct E as (o1 & E1 & E).
  apply ret_ex in E. destruct E as (g2 & G2 & E). apply ret_ex in E. destruct E as (o2 & E2 & E). rewrite !andb_true_iff in E. destruct E as (((W1 & W2) & EU) & EV).
  apply wd_corner_ok in W1, W2.
  assert (B : forall i j k, Forall (fun z => (-5 <= z <= 5)%Z) [i; j; k] -> Forall (fun v => Rabs v <= 5) [IZR i; IZR j; IZR k]).
  { intros i j k K. rewrite !Forall_cons_iff in K. destruct K as ((A & A') & (B & B') & (C & C') & _).
    repeat apply Forall_cons; try apply Forall_nil; apply Rabs_le; split; (apply IZR_le; lia) || (change (- (5)) with (IZR (-5)); apply IZR_le; lia). }
  pose proof (records_full _ _ _ _ _ _ _ (wd_records (om_grid o0) g1 c1 qs1 ls1 _ G1 W1 (B _ _ _ KK) MO1 NR1 P1 S1 O1)) as R1.
  pose proof (records_full _ _ _ _ _ _ _ (wd_records (om_grid o1) g2 c2 qs2 ls2 _ G2 W2 (B _ _ _ LL) MO2 NR2 P2 S2 O2)) as R2.
  assert (X1 : full_recorded 3 f1 t fu_lidar o1 [([0; 0; 0], qs1)]) by (apply (full_next _ _ _ _ o0 [] _ 3072 as_is as_is sm_b c1); [now apply full_new|exact as_is_order|exact as_is_order|exact R1|lia|exact E1]).
  exists o1, g2, o2. split; [exact X1|]. split; [exact R2|]. split; [exact E2|]. split; [|auto].
  apply (full_next _ _ _ _ o1 [([0; 0; 0], qs1)] _ 3072 as_is as_is sm_b c2); [exact X1|exact as_is_order|exact as_is_order|exact R2|lia|exact E2].
Qed.

Lemma fu_a1 : fu_ok tn_cloud [tn_P; tn_Q] [[2; 0; 1]; [4; 0; 0]].
Proof.
  destruct wd_values as (A & B & _). split; [vm_compute; reflexivity|]. split; [reflexivity|]. split; [rewrite (proj1 tn_points); exact (Forall2_cons _ _ A (Forall2_cons _ _ B (Forall2_nil _)))|].
  split; [exact (proj1 (proj1 (Forall_app _ [[2; 0; 1]; [4; 0; 0]] [[-2; 0; 1]]) wd_sizes))|].
  assert (O1 : off_by_cells (/ 128) 1 [2; 0; 1] tn_P) by (repeat apply Forall2_cons; try apply Forall2_nil; apply Rabs_le; lra).
  assert (O2 : off_by_cells (/ 128) 1 [4; 0; 0] tn_Q) by (repeat apply Forall2_cons; try apply Forall2_nil; apply Rabs_le; lra).
  exact (Forall2_cons _ _ (conj O1 tn_clear_P) (Forall2_cons _ _ (conj O2 tn_clear_Q) (Forall2_nil _))).
Qed.
Lemma fu_a2 : fu_ok wd_a2 [wd_N] [[-2; 0; 1]].
Proof.
  destruct wd_values as (_ & _ & C & _). split; [vm_compute; reflexivity|]. split; [reflexivity|]. split; [rewrite (proj1 wd_points); exact (Forall2_cons _ _ C (Forall2_nil _))|].
  split; [exact (proj2 (proj1 (Forall_app _ [[2; 0; 1]; [4; 0; 0]] [[-2; 0; 1]]) wd_sizes))|].
  assert (O1 : off_by_cells (/ 128) 1 [-2; 0; 1] wd_N) by (repeat apply Forall2_cons; try apply Forall2_nil; apply Rabs_le; lra).
  exact (Forall2_cons _ _ (conj O1 wd_clear_N) (Forall2_nil _)).
Qed.
Lemma fu_b1 : fu_ok wd_b1 [tn_P; tn_Q] [[2 + / 256; 0; 1]; [4; 0; - / 256]].
Proof.
  destruct wd_values as (_ & _ & _ & A & B & _). split; [vm_compute; reflexivity|]. split; [reflexivity|]. split; [rewrite (proj1 (proj2 wd_points)); exact (Forall2_cons _ _ A (Forall2_cons _ _ B (Forall2_nil _)))|].
  split; [exact (proj1 (proj1 (Forall_app _ [[2 + / 256; 0; 1]; [4; 0; - / 256]] [[-2; / 256; 1 - / 256]]) wd_sizes'))|].
  assert (O1 : off_by_cells (/ 128) 1 [2 + / 256; 0; 1] tn_P) by (repeat apply Forall2_cons; try apply Forall2_nil; apply Rabs_le; lra).
  assert (O2 : off_by_cells (/ 128) 1 [4; 0; - / 256] tn_Q) by (repeat apply Forall2_cons; try apply Forall2_nil; apply Rabs_le; lra).
  exact (Forall2_cons _ _ (conj O1 tn_clear_P) (Forall2_cons _ _ (conj O2 tn_clear_Q) (Forall2_nil _))).
Qed.
Lemma fu_b2 : fu_ok wd_b2 [wd_N] [[-2; / 256; 1 - / 256]].
Proof.
  destruct wd_values as (_ & _ & _ & _ & _ & C). split; [vm_compute; reflexivity|]. split; [reflexivity|]. split; [rewrite (proj2 (proj2 wd_points)); exact (Forall2_cons _ _ C (Forall2_nil _))|].
  split; [exact (proj2 (proj1 (Forall_app _ [[2 + / 256; 0; 1]; [4; 0; - / 256]] [[-2; / 256; 1 - / 256]]) wd_sizes'))|].
  assert (O1 : off_by_cells (/ 128) 1 [-2; / 256; 1 - / 256] wd_N) by (repeat apply Forall2_cons; try apply Forall2_nil; apply Rabs_le; lra).
  exact (Forall2_cons _ _ (conj O1 wd_clear_N) (Forall2_nil _)).
Qed.

Lemma fu_range : forall t, (1 <= t <= 2 ^ 17)%Z -> map_range 3 f1 t /\ fltb f0 (max_range fu_lidar) = false.
Proof. intros t T. split; [split; [now right|]; split; [exact res_one|exact T]|vm_compute; reflexivity]. Qed.

(** The cell [4; 0; 0], beyond the limit of C96, is hit, and those before it are passed. *)
Lemma fu_first : exists o1 g1 o2, full_recorded 3 f1 2 fu_lidar o1 [wd_1] /\ full_records 3 f1 (om_grid o1) wd_2 sm_b wd_a2 /\ om_integrate 3072 as_is as_is o1 sm_b wd_a2 = Ret o2 /\
  full_recorded 3 f1 2 fu_lidar o2 [wd_1; wd_2] /\
  (gm_get (om_grid o2) [4; 0; 1] = Ret (f32_lit 85 100) /\ gm_get (om_grid o2) [0; 0; 1] = Ret (f32_lit 85 100) /\ gm_get (om_grid o2) [6; 0; 0] = Ret (f32_lit 85 100) /\ gm_get (om_grid o2) [5; 0; 0] = Ret (f32_lit (-4) 10))%Z /\
  gm_expand_bounds (om_grid o1) (pc_bounds wd_a2) f0 = Ret g1 /\
  exists cb, covers_cells 3 f1 2 g1 cb /\ in_box cb (nearest_cell (world 3) (real f1) (fst wd_2)) /\ (forall q, In q (snd wd_2) -> in_box cb (nearest_cell (world 3) (real f1) q)).
Proof.
  destruct (fu_two 2 tn_cloud wd_a2 _ _ _ _ 0 0 0 (-2) 0 0 (fun g => in_boxb (cb_from_bounds (gm_bounds g) f1) [0; 0; 0]%Z && in_boxb (cb_from_bounds (gm_bounds g) f1) [-2; 0; 1]%Z)
    (fun g => wd_same g [4; 0; 1]%Z (f32_lit 85 100) && wd_same g [0; 0; 1]%Z (f32_lit 85 100) && wd_same g [6; 0; 0]%Z (f32_lit 85 100) && wd_same g [5; 0; 0]%Z (f32_lit (-4) 10)) fu_a1 fu_a2)
    as (o1 & g2 & o2 & H1 & H2 & H3 & H4 & H5 & H6 & H7).
  - repeat apply Forall_cons; try apply Forall_nil; lia.
  - repeat apply Forall_cons; try apply Forall_nil; lia.
  - vm_compute. reflexivity.
  - exists o1, g2, o2. rewrite !andb_true_iff in H5. destruct H5 as (((V1 & V2) & V3) & V4). apply wd_same_ok in V1, V2, V3, V4.
    rewrite andb_true_iff, !in_boxb_iff in H7. destruct H7 as [B1 B2]. destruct tn_numbers as (_ & (_ & R1) & _). destruct (fu_range 2 ltac:(lia)) as [M3 Z].
    split; [exact H1|]. split; [exact H2|]. split; [exact H3|]. split; [exact H4|]. split; [repeat (split; [assumption|]); assumption|]. split; [exact H6|].
    destruct (full_limited 3 f1 2 fu_lidar o1 _ M3 Z H1) as (_ & R & _). destruct (recorded_facts _ _ _ _ _ _ R) as [_ Rg]. cbn [om_grid] in Rg.
    assert (R2 : reachable 3 f1 2 g2) by (eapply reach_expand; [exact Rg|exact (proj1 (proj2 H2))|exact H6]).
    exists (cb_from_bounds (gm_bounds g2) f1). split; [exact (covers_cells_computed _ 3 f1 2 g2 M3 R2)|].
    rewrite R1. split; [change (fst wd_2) with (map IZR [0; 0; 0]%Z); change (world 3) with (repeat 0 (length [0; 0; 0]%Z)); rewrite whole_cell; exact B1|].
    intros q [<-|[]]. change wd_N with (map IZR [-2; 0; 1]%Z). change (world 3) with (repeat 0 (length [-2; 0; 1]%Z)). rewrite whole_cell. exact B2.
Qed.
(** With other rounding and another tile size, and in the other order. *)
Lemma fu_second : exists o, full_recorded 3 f1 4 fu_lidar o [wd_1; wd_2] /\ (gm_get (om_grid o) [6; 0; 5] = Ret (f32_lit 85 100) /\ gm_get (om_grid o) [8; 0; 4] = Ret (f32_lit 85 100))%Z.
Proof.
  destruct (fu_two 4 wd_b1 wd_b2 _ _ _ _ 0 0 (-4) (-4) 0 (-4) (fun _ => true) (fun g => wd_same g [6; 0; 5]%Z (f32_lit 85 100) && wd_same g [8; 0; 4]%Z (f32_lit 85 100)) fu_b1 fu_b2)
    as (o1 & g2 & o2 & _ & _ & _ & H4 & H5 & _).
  - repeat apply Forall_cons; try apply Forall_nil; lia.
  - repeat apply Forall_cons; try apply Forall_nil; lia.
  - vm_compute. reflexivity.
  - exists o2. rewrite !andb_true_iff in H5. destruct H5 as (V1 & V2). apply wd_same_ok in V1, V2. split; [exact H4|split; assumption].
Qed.
Lemma fu_third : exists o, full_recorded 3 f1 4 fu_lidar o [wd_2; wd_1] /\ (gm_get (om_grid o) [6; 0; 5] = Ret (f32_lit 85 100) /\ gm_get (om_grid o) [8; 0; 4] = Ret (f32_lit 85 100))%Z.
Proof.
  destruct (fu_two 4 wd_b2 wd_b1 _ _ _ _ (-4) 0 0 (-4) 0 (-4) (fun _ => true) (fun g => wd_same g [6; 0; 5]%Z (f32_lit 85 100) && wd_same g [8; 0; 4]%Z (f32_lit 85 100)) fu_b2 fu_b1)
    as (o1 & g2 & o2 & _ & _ & _ & H4 & H5 & _).
  - repeat apply Forall_cons; try apply Forall_nil; lia.
  - repeat apply Forall_cons; try apply Forall_nil; lia.
  - vm_compute. reflexivity.
  - exists o2. rewrite !andb_true_iff in H5. destruct H5 as (V1 & V2). apply wd_same_ok in V1, V2. split; [exact H4|split; assumption].
Qed.

(** The walls. *)
Lemma fu_sees : Forall (full_sees 3 (real f1) wl_walls) [wd_1; wd_2].
Proof.
  destruct tn_numbers as (_ & (_ & R1) & _). rewrite R1. destruct wl_ends as (EP & EQ & EN).
  assert (G : forall q c, nearest_cell (world 3) 1 q = c -> wl_walls c -> (forall w, wl_walls w -> meets (world 3) 1 [0; 0; 0] q w -> w = c) ->
    wl_walls (nearest_cell (world 3) 1 q) /\ forall w, meets (world 3) 1 [0; 0; 0] q w -> w <> nearest_cell (world 3) 1 q -> ~ wl_walls w).
  { intros q c E W H. rewrite E. split; [exact W|]. intros w A B K. apply B. exact (H w K A). }
  repeat apply Forall_cons; try apply Forall_nil; intros q Hq; cbn [fst snd wd_1 wd_2] in *.
  - destruct Hq as [<-|[<-|[]]]; [apply (G _ _ EP)|apply (G _ _ EQ)]; [now left| |now right; left|].
    + intros w [<-|[<-|[<-|[]]]] A; [reflexivity|exfalso|exfalso].
      * destruct (wl_meets _ _ 0%nat A eq_refl eq_refl ltac:(lia)) as (u & U & I). unfold tn_P in I. cbn [nth] in I. assert (u * (2 - / 33554432) <= 1 * 2) by (apply Rmult_le_compat; lra). lra.
      * destruct (wl_meets _ _ 0%nat A eq_refl eq_refl ltac:(lia)) as (u & U & I). unfold tn_P in I. cbn [nth] in I. assert (0 <= u * (2 - / 33554432)) by (apply Rmult_le_pos; lra). lra.
    + intros w [<-|[<-|[<-|[]]]] A; [exfalso|reflexivity|exfalso].
      * destruct (wl_meets _ _ 2%nat A eq_refl eq_refl ltac:(lia)) as (u & U & I). unfold tn_Q in I. cbn [nth] in I. lra.
      * destruct (wl_meets _ _ 2%nat A eq_refl eq_refl ltac:(lia)) as (u & U & I). unfold tn_Q in I. cbn [nth] in I. lra.
  - destruct Hq as [<-|[]]. apply (G _ _ EN); [now right; right; left|]. intros w [<-|[<-|[<-|[]]]] A; [exfalso|exfalso|reflexivity].
    + destruct (wl_meets _ _ 0%nat A eq_refl eq_refl ltac:(lia)) as (u & U & I). unfold wd_N in I. cbn [nth] in I. lra.
    + destruct (wl_meets _ _ 0%nat A eq_refl eq_refl ltac:(lia)) as (u & U & I). unfold wd_N in I. cbn [nth] in I. lra.
Qed.
Lemma fu_model : signs_ok fu_lidar /\ fle f0 (occupied_threshold_logodds fu_lidar) /\ fltb (occupied_threshold_logodds fu_lidar) (evidence fu_lidar f0 true) = true.
Proof. unfold signs_ok, fle. repeat split; vm_compute; reflexivity. Qed.

(** A limit of 2^20 cells. *)
Lemma fu_limit : exists o, recorded 3 f1 2 fu_far o [wd_1; wd_2] /\ Forall (all_arrive 3 (real (max_range fu_far)) (real f1)) [wd_1; wd_2] /\
  (fltb f0 (max_range fu_far) = true /\ finite (max_range fu_far) /\ real (max_range fu_far) <= 1048576 * real f1) /\ with_limit fu_far f0 = fu_lidar.
Proof.
  destruct fu_first as (_ & _ & o & _ & _ & _ & H & _). destruct (fu_range 2 ltac:(lia)) as [M3 Z]. destruct (full_limited 3 f1 2 fu_lidar o _ M3 Z H) as (_ & R & A).
  exists (mkOcc (om_grid o) fu_far). split; [exact R|]. split; [exact A|]. split; [exact (far_ok 3 f1 2 fu_lidar M3)|reflexivity].
Qed.

(** A wall that is taken down or put up, after any number of scans. *)
Lemma limited_full : forall d r t m o L, map_range d r t -> fltb f0 (max_range m) = false -> recorded d r t (with_limit m (far_limit r)) o L -> full_recorded d r t m (mkOcc (om_grid o) m) L.
Proof.
  intros d r t m o L MR Hm H. induction H as [o E|o L s fuel of oo origin cloud o' H IH Hf Ho OK F E|o L x H IH|o L H IH].
  - apply full_new. unfold om_new in *. destruct (gm_new _ _ _ _) as [g| |]; try discriminate. cbn [obind] in *. injection E as <-. reflexivity.
  - destruct (recorded_facts _ _ _ _ _ _ H) as [Em Rg]. apply records_full in OK. destruct (full_scan d r t fuel of oo m (om_grid o) s origin cloud MR Rg OK Hm F) as (_ & _ & EQ).
    apply (full_next _ _ _ _ _ L s fuel of oo origin cloud _ IH Hf Ho OK F). unfold om_integrate in *. cbn [om_grid om_model]. rewrite EQ. rewrite Em in E.
    destruct (integrate_point_cloud fuel of oo (with_limit m (far_limit r)) (om_grid o) origin cloud) as [g'| |]; try discriminate E. cbn [obind] in *. injection E as <-. reflexivity.
  - exact (full_track _ _ _ _ _ L x IH).
  - exact (full_clear _ _ _ _ _ L IH).
Qed.
Lemma fu_changed : forall b i j, (exists o, full_recorded 3 f1 2 fu_lidar o (wl_history (repeat (negb b) i) ++ map wl_scan (repeat b j))) /\
  Forall (full_sees 3 (real f1) (wl_wall b)) (map wl_scan (repeat b j)) /\ Forall2 (full_verdict 3 (real f1) [2; 0; 0]%Z) (map wl_scan (repeat b j)) (repeat (Some b) j).
Proof.
  intros b i j. destruct tn_numbers as (_ & (_ & R1) & _). destruct (fu_range 2 ltac:(lia)) as [M3 Z]. destruct (far_value f1 res_one) as (Ff & Vf & Pf).
  assert (B : 4 <= real (max_range fu_far) <= 1048576 * real f1) by (change (max_range fu_far) with (far_limit f1); rewrite Vf, R1; lra).
  destruct (wl_changed fu_far b i j Pf Ff B) as ((o & H) & _ & V).
  split; [exists (mkOcc (om_grid o) fu_lidar); exact (limited_full 3 f1 2 fu_lidar o _ M3 Z H)|]. split.
  - apply Forall_forall. intros s Hs. apply in_map_iff in Hs. destruct Hs as (b' & <- & Hb). apply repeat_spec in Hb. subst b'. rewrite R1, wl_scan_eq. intros q [<-|[]]. cbn [fst]. change (world 3) with [0; 0; 0].
    rewrite wl_end. split; [reflexivity|]. intros w _ N K. exact (N K).
  - apply (verdicts_full 3 (real (max_range fu_far))); [|exact V]. apply Forall_forall. intros s Hs. apply in_map_iff in Hs. destruct Hs as (b' & <- & _). rewrite R1, wl_scan_eq. intros q [<-|[]] y.
    cbn [fst]. apply wl_no_limit. lra.
Qed.
Lemma fu_numbers : map_range 3 f1 2 /\ fltb f0 (max_range fu_lidar) = false /\ signs_ok fu_lidar /\ moderate_model fu_lidar /\
  counts fu_lidar (- real (miss_logodds fu_lidar)) /\ counts fu_lidar (real (hit_logodds fu_lidar)) /\
  (let thr := real (occupied_threshold_logodds fu_lidar) in real (min_logodds fu_lidar) <= thr /\ real (max_logodds fu_lidar) - thr <= INR 9 * (1023 / 1024 * - real (miss_logodds fu_lidar)) /\
   thr < real (max_logodds fu_lidar) /\ thr - real (min_logodds fu_lidar) < INR 3 * (1023 / 1024 * real (hit_logodds fu_lidar))).
Proof. destruct wl_numbers as (_ & A & B & C & D & E). destruct (fu_range 2 ltac:(lia)) as [M3 Z]. split; [exact M3|]. split; [exact Z|]. split; [exact A|]. split; [exact B|]. split; [exact C|]. split; [exact D|exact E]. Qed.
Lemma fu_walls : exists o, map_range 3 f1 2 /\ fltb f0 (max_range fu_lidar) = false /\ full_recorded 3 f1 2 fu_lidar o [wd_1; wd_2] /\ Forall (full_sees 3 (real f1) wl_walls) [wd_1; wd_2] /\
  (signs_ok fu_lidar /\ fle f0 (occupied_threshold_logodds fu_lidar) /\ fltb (occupied_threshold_logodds fu_lidar) (evidence fu_lidar f0 true) = true) /\ gm_get (om_grid o) [6; 0; 0]%Z = Ret (f32_lit 85 100).
Proof.
  destruct fu_first as (_ & _ & o & _ & _ & _ & H & (_ & _ & V & _) & _). destruct (fu_range 2 ltac:(lia)) as [M3 Z]. exists o.
  split; [exact M3|]. split; [exact Z|]. split; [exact H|]. split; [exact fu_sees|]. split; [exact fu_model|exact V].
Qed.
Lemma fu_tiles : (exists o, full_recorded 3 f1 2 fu_lidar o [wd_1; wd_2] /\ gm_get (om_grid o) [6; 0; 0]%Z = Ret (f32_lit 85 100)) /\
  (exists o, full_recorded 3 f1 4 fu_lidar o [wd_1; wd_2] /\ gm_get (om_grid o) [8; 0; 4]%Z = Ret (f32_lit 85 100)) /\ map_range 3 f1 2 /\ map_range 3 f1 4 /\ fltb f0 (max_range fu_lidar) = false.
Proof.
  destruct fu_first as (_ & _ & o & _ & _ & _ & H & (_ & _ & V & _) & _). destruct fu_second as (o' & H' & _ & V'). destruct (fu_range 2 ltac:(lia)) as [M3 Z]. destruct (fu_range 4 ltac:(lia)) as [M4 _].
  split; [exists o; split; [exact H|exact V]|]. split; [exists o'; split; [exact H'|exact V']|]. split; [exact M3|]. split; [exact M4|exact Z].
Qed.
