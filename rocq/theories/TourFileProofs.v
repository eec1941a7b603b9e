(** C98: the visualiser with the numbers of the program, and from the files. *)
From Coq Require Import ZArith List Bool Reals Lra Lia.
From Flocq Require Import Core BinarySingleNaN.
From Verif Require Import Base F32 F64 FloatFacts Arith Geom NdArray GridMap RayCaster NoiseModel Kitti Spec SpecMap SpecNoise SpecKitti SpecMeet SpecNear
  MathProofs BoundsProofs CloudProofs ScanProofs Viz SpecViz VizProofs MainProofs ProgramProofs LiveProofs CornerProofs Pose SpecPose SpecMain PoseProofs StartProofs SceneProofs
  SpecWorld SpecWall SpecTour TourProofs.
Open Scope Z_scope.

Lemma default_limit : forall ln m, lidar_default ln = Ret m -> max_range m = DEFAULT_MAX_RANGE.
Proof.
  intros ln m Em. unfold lidar_default, lidar_new, oassert in Em.
  repeat match type of Em with context [is_probability ?p] => replace (is_probability p) with true in Em by (vm_compute; reflexivity) end. cbn [obind] in Em.
  injection Em as <-. reflexivity.
Qed.
Lemma sixty_cells : (real DEFAULT_MAX_RANGE <= 1048576 * real DEFAULT_RESOLUTION)%R.
Proof. pose proof resolution_tenth. rewrite range_sixty. lra. Qed.

Lemma tour_in_program : forall ln rec o st th ev S wall, ln_special ln -> ln_monotone ln -> (forall x, fltb f1 x = true -> fltb f0 (ln x) = true) ->
  om_default 3 ln = Ret o -> recording_ok 3 DEFAULT_RESOLUTION DEFAULT_TILE_SIZE rec -> first_lowest rec -> execution rec o st th ev -> fair rec st th ->
  Forall2 (taken_at 3 DEFAULT_MAX_RANGE DEFAULT_RESOLUTION) S (combine (origins rec) (clouds rec)) ->
  Forall (sees 3 (real DEFAULT_MAX_RANGE) (real DEFAULT_RESOLUTION) wall) S ->
  exists N, forall n, (N <= n)%nat -> exists cb, covers_cells 3 DEFAULT_RESOLUTION DEFAULT_TILE_SIZE (om_grid (grid (st n))) cb /\
    (forall w, length w = 3%nat -> (tour_hits 3 (real DEFAULT_MAX_RANGE) (real DEFAULT_RESOLUTION) S w <-> exists p, In (map2 Z.sub w (cmin cb), p) (tracked (st n)))) /\
    (forall c p, In (c, p) (tracked (st n)) -> in_box cb (map2 Z.add (cmin cb) c) /\ wall (map2 Z.add (cmin cb) c) /\ near_cell DEFAULT_RESOLUTION (map2 Z.add (cmin cb) c) p) /\
    NoDup (map fst (tracked (st n))).
Proof.
  intros ln rec o st th ev S wall Sp Mo Po E RO FL X Fa TA SE.
  destruct (default_start ln o E) as (m & Em & En). destruct (default_detects ln Sp Mo Po) as (m' & Em' & SG & T1 & T2 & _).
  rewrite Em in Em'. injection Em' as <-. pose proof (default_limit ln m Em) as MR. rewrite <- MR in TA, SE. rewrite <- MR.
  apply (tour_displayed rec 3 DEFAULT_RESOLUTION DEFAULT_TILE_SIZE m o st th ev S wall RO); try assumption.
  - rewrite MR. vm_compute. reflexivity.
  - rewrite MR. reflexivity.
  - rewrite MR. exact sixty_cells.
Qed.

(** ** From the files *)
Lemma drive_taken : forall s lookup args path rec vs ms scs, viz_main s lookup args = Ret (Some rec) -> nth_error args 1 = Some path -> drive s (lookup path) vs ms ->
  trig_accurate (sys_sin s) (sys_cos s) -> measured s vs ms -> near_start s vs ms -> scenes_of s vs ms scs ->
  Forall (fun sc => Forall (clear_segment 60 (world 3) (real DEFAULT_RESOLUTION) (fst sc)) (snd sc)) scs ->
  Forall2 (taken_at 3 DEFAULT_MAX_RANGE DEFAULT_RESOLUTION) scs (combine (origins rec) (clouds rec)).
Proof.
  intros s lookup args path rec vs ms scs E Pa D TA ME NS SS CS. destruct (same_length s lookup args path rec vs ms E Pa D) as (L1 & L2 & L3). pose proof SS as [LS SN].
  assert (G : forall k sc, nth_error scs k = Some sc -> exists o c, nth_error (origins rec) k = Some o /\ nth_error (clouds rec) k = Some c /\
    taken_at 3 DEFAULT_MAX_RANGE DEFAULT_RESOLUTION sc (o, c)).
  { intros k sc Hk. assert (Lk : (k < length vs)%nat) by (rewrite <- LS; apply nth_error_Some; congruence).
    destruct (files_at s lookup args path rec vs ms E Pa D k Lk) as (v & m & Hv & Hm). rewrite (SN k v m Hv Hm) in Hk. injection Hk as <-.
    destruct (frame_at s lookup args path rec vs ms E Pa D TA ME k v m Hv Hm) as (o & c & Ho & Hc & Lo & Fo & _).
    exists o, c. split; [exact Ho|]. split; [exact Hc|].
    destruct (ME k v m Hv Hm) as (A1 & A2 & A3 & _ & PT). destruct (NS k v m Hv Hm) as [SP NP].
    assert (O : matrix_ok m /\ nrows m = 3%nat). { destruct D as (_ & _ & _ & _ & (n2 & _ & F2')). destruct (Forall2_nth_r _ _ _ _ _ _ _ F2' Hm) as (n & (b & _ & _ & O & N & _)). auto. }
    destruct O as [O N]. pose proof (pc_points_length m O) as LP. rewrite N in LP. rewrite Forall_forall in LP.
    assert (SM : Forall (sized 25) (mdata m)).
    { apply data_all; [assumption|]. intros p Ip. destruct (PT p Ip) as [Fp _]. pose proof (NP p Ip) as Dp. specialize (LP p Ip). destruct p as [|x [|y [|z [|]]]]; try discriminate LP.
      unfold triple, dot3 in Dp. cbn [nth] in Dp. pose proof (Rle_0_sqr (real x)) as Q1. pose proof (Rle_0_sqr (real y)) as Q2. pose proof (Rle_0_sqr (real z)) as Q3. unfold Rsqr in *.
      inversion_clear Fp as [|? ? X Fp']. inversion_clear Fp' as [|? ? Y Fp'']. inversion_clear Fp'' as [|? ? Z _].
      repeat (apply Forall_cons; [split; [assumption|]; apply abs_by_square; lra|]). apply Forall_nil. }
    assert (P25 : (0 <= 25 <= bp 40)%R) by (split; [lra|]; apply Rle_trans with (bp 8); [change (bp 8) with 256%R; lra|apply bpow_le; lia]).
    pose proof (main_placed s _ _ _ _ _ _ 25 k v m c E Pa D TA Hv Hm A1 A2 A3 P25 SP SM Hc) as PL.
    assert (BB : (bp (-15) * 25 + bp (-147) <= / 128 * real DEFAULT_RESOLUTION)%R).
    { assert (bp (-147) <= bp (-20))%R by (apply bpow_le; lia). pose proof resolution_tenth. change (bp (-15)) with (/ 32768)%R. change (bp (-20)) with (/ 1048576)%R in H. lra. }
    pose proof resolution_tenth as RT.
    split.
    - cbn [fst]. rewrite Fo. clear - RT. assert (H : forall l : list R, off_by_cells (/ 128) (real DEFAULT_RESOLUTION) l l); [|apply H].
      intro l. unfold off_by_cells. induction l as [|x l IH]; constructor; [|exact IH]. rewrite Rminus_diag_eq, Rabs_R0 by reflexivity. lra.
    - rewrite Forall_forall in CS. specialize (CS _ (nth_error_In _ _ (SN k v m Hv Hm))). rewrite range_sixty.
      unfold scene_of in CS |- *. cbn [fst snd] in CS |- *. set (t := coords (position s vs k v)) in *. clear - PL BB CS.
      induction PL as [|p q l l' (Lq & Fq & Nq) H IH]; cbn [map] in *; constructor; [|apply IH; now inversion CS]. split; [|now inversion CS].
      destruct (plus3 _ _) as [[x y] z]. destruct q as [|a [|b [|e [|]]]]; try discriminate Lq. unfold triple in Nq. cbn [nth] in Nq. destruct Nq as (N1 & N2 & N3). cbn [list3 map].
      repeat apply Forall2_cons; try apply Forall2_nil; lra. }
  clear - G L2 L3 LS. assert (K2 : length (origins rec) = length scs) by congruence. assert (K3 : length (clouds rec) = length scs) by congruence. clear L2 L3 LS.
  revert K2 K3 G. generalize (origins rec) (clouds rec). induction scs as [|sc scs IH]; intros [|o l] [|c l'] K2 K3 G; try discriminate; cbn [combine]; constructor.
  - destruct (G 0%nat sc eq_refl) as (o' & c' & Eo & Ec & T). cbn [nth_error] in Eo, Ec. injection Eo as <-. injection Ec as <-. exact T.
  - apply IH; [now injection K2|now injection K3|]. intros k sc' Hk. exact (G (Datatypes.S k) sc' Hk).
Qed.

Lemma tour_files : forall s lookup args path rec vs ms scs ln o st th ev wall, viz_main s lookup args = Ret (Some rec) -> nth_error args 1 = Some path -> drive s (lookup path) vs ms ->
  vs <> [] -> trig_accurate (sys_sin s) (sys_cos s) -> measured s vs ms -> near_start s vs ms -> scenes_of s vs ms scs -> Forall (scene_clear (real DEFAULT_RESOLUTION)) scs ->
  lowest_first (real DEFAULT_RESOLUTION) scs -> Forall (fun sc => Forall (clear_segment 60 (world 3) (real DEFAULT_RESOLUTION) (fst sc)) (snd sc)) scs ->
  Forall (sees 3 60 (real DEFAULT_RESOLUTION) wall) scs -> ln_special ln -> ln_monotone ln -> (forall x, fltb f1 x = true -> fltb f0 (ln x) = true) ->
  om_default 3 ln = Ret o -> execution rec o st th ev -> fair rec st th ->
  exists N, forall n, (N <= n)%nat -> exists cb, covers_cells 3 DEFAULT_RESOLUTION DEFAULT_TILE_SIZE (om_grid (grid (st n))) cb /\
    (forall w, length w = 3%nat -> (tour_hits 3 60 (real DEFAULT_RESOLUTION) scs w <-> exists p, In (map2 Z.sub w (cmin cb), p) (tracked (st n)))) /\
    (forall c p, In (c, p) (tracked (st n)) -> in_box cb (map2 Z.add (cmin cb) c) /\ wall (map2 Z.add (cmin cb) c) /\ near_cell DEFAULT_RESOLUTION (map2 Z.add (cmin cb) c) p) /\
    NoDup (map fst (tracked (st n))).
Proof.
  intros s lookup args path rec vs ms scs ln o st th ev wall E Pa D NE TA ME NS SS SC LF CS SE Sp Mo Po EO X Fa.
  rewrite <- range_sixty in SE. rewrite <- range_sixty. apply (tour_in_program ln rec o st th ev scs wall Sp Mo Po EO); try assumption.
  - exact (drive_recording s lookup args path rec vs ms scs E Pa D NE TA ME SS SC).
  - exact (drive_lowest s lookup args path rec vs ms scs E Pa D TA ME SS LF).
  - exact (drive_taken s lookup args path rec vs ms scs E Pa D TA ME NS SS CS).
Qed.
