(** The scans of C96 stored in f32. *)
From Coq Require Import ZArith List Bool Reals Lra Lia Permutation.
From Flocq Require Import Core BinarySingleNaN.
From Verif Require Import Base F32 FloatFacts Arith Geom NdArray GridMap RayCaster NoiseModel Spec SpecMap SpecNoise SpecBack SpecMeet SpecNear SpecWorld SpecWall SpecFull SpecDrive SpecNoise NdProofs MapProofs ScanProofs NoiseProofs WorldMapProofs RayReach DriveProofs Examples ExamplesMap ExamplesNoise ExamplesViz ExamplesRay ExamplesShift ExamplesSame ExamplesMeet ExamplesNear ExamplesWorld ExamplesWall RoundError SceneProofs OddsProofs SpecOdds SpecTour ExamplesScene ExamplesTour ExamplesFull.
Open Scope R_scope.

Definition dr_cloud : matrix := mkMatrix 3 2 (tn_p ++ tn_q).
Definition dr_frames : list ((point * matrix) * orders) := [((sm_b, dr_cloud), (as_is, as_is)); ((sm_b, wd_a2), (as_is, as_is))].

(** A sum of two f32s is stored as their sum in f32. *)
Lemma dr_sum : forall (a b f : f32) x, B2SF (fadd a b) = B2SF f -> finite f -> x = real a + real b -> rounds_to x f.
Proof. intros a b f x E F ->. apply B2SF_inj in E. split; [exact F|]. rewrite <- E in *. exact (proj2 (proj2 (fadd_val a b F))). Qed.
Lemma dr_rounds : rounds_to 0 f0 /\ rounds_to 1 f1 /\ rounds_to (-2) (f32_lit (-2) 1) /\ rounds_to (2 - / 33554432) (f32_lit 2 1) /\ rounds_to (1 + / 16777216) f1 /\ rounds_to (4 + / 281474976710656) (f32_lit 4 1).
Proof.
  destruct tn_numbers as ((F0 & V0) & (F1 & V1) & (F2 & V2) & (F4 & V4) & _ & (_ & T) & _). destruct (quarter (f32_lit (-2) 1) (-8) ltac:(vm_compute; reflexivity)) as [FN VN].
  destruct (steps_ok (-24) (f32_lit 1 16777216) 1 ltac:(vm_compute; reflexivity)) as [_ A]. change (bpow radix2 (-24)) with (/ 16777216) in A.
  destruct (steps_ok (-48) (f32_lit 1 281474976710656) 1 ltac:(vm_compute; reflexivity)) as [_ B]. change (bpow radix2 (-48)) with (/ 281474976710656) in B.
  split; [|split; [|split; [|split; [|split]]]].
  - apply (dr_sum f0 f0); [vm_compute; reflexivity|assumption|]. rewrite V0. lra.
  - apply (dr_sum f1 f0); [vm_compute; reflexivity|assumption|]. rewrite V0, V1. lra.
  - apply (dr_sum (f32_lit (-2) 1) f0); [vm_compute; reflexivity|assumption|]. rewrite V0, VN. lra.
  - apply (dr_sum (f32_lit 2 1) (f32_lit (-1) 33554432)); [vm_compute; reflexivity|assumption|]. rewrite V2, T. lra.
  - apply (dr_sum f1 (f32_lit 1 16777216)); [vm_compute; reflexivity|assumption|]. rewrite V1, A. lra.
  - apply (dr_sum (f32_lit 4 1) (f32_lit 1 281474976710656)); [vm_compute; reflexivity|assumption|]. rewrite V4, B. lra.
Qed.
Lemma dr_off : forall g x n, 0 < g -> IZR n - / 2 + g <= x <= IZR n + / 2 - g -> forall k, g * 1 <= Rabs (x - (0 + (IZR k + / 2) * 1)).
Proof.
  intros g x n P H k. replace (x - (0 + (IZR k + / 2) * 1)) with (x - / 2 - IZR k) by lra. rewrite Rmult_1_r. apply (off_by _ _ (n - 1)); [exact P|]. rewrite minus_IZR. lra.
Qed.
Lemma dr_room : forall i s x k f, rounds_to x f -> IZR k <= real f -> x <= IZR k + 15 / 64 -> has_room i 1 s x.
Proof. intros i s x k f [_ E] H1 H2. right. right. exists k. rewrite <- E. lra. Qed.
Lemma dr_reach : Forall (in_reach 3 (11 / 4) 1) [wd_1; wd_2].
Proof.
  destruct dr_rounds as (R0 & R1 & RN & RP & RQ & RS). destruct tn_numbers as ((F0 & V0) & (F1 & V1) & (F2 & V2) & (F4 & V4) & _).
  assert (B : forall x, -5 <= x <= 5 -> Rabs x <= 16000 * 1) by (intros x H; apply Rabs_le; lra).
  assert (Z : forall i s, has_room i 1 s 0) by (intros i s; apply (dr_room i s 0 0 f0 R0); lra).
  assert (O : forall s, fst s = [0; 0; 0] -> length (fst s) = 3%nat /\ Forall (fun x => Rabs x <= 16000 * 1) (fst s) /\
    forall i, (i < 3)%nat -> let x := nth i (fst s) 0 in (0 <= x \/ exists q, In q (snd s) /\ nth i q 0 <= x) /\ (x <= 0 \/ exists q, In q (snd s) /\ x <= nth i q 0) /\ has_room i 1 s x).
  { intros s ->. split; [reflexivity|]. split; [repeat apply Forall_cons; try apply Forall_nil; apply B; lra|]. intros i L. cbv zeta.
    assert (E : nth i [0; 0; 0] 0 = 0) by (destruct i as [|[|[|i]]]; [reflexivity..|lia]). rewrite E. split; [left; lra|]. split; [left; lra|apply Z]. }
  assert (D : forall x, (x = 0 \/ / 64 <= x <= 5 \/ -5 <= x <= - / 64) -> (x = 0 \/ 1 / 64 <= Rabs x) /\ Rabs x <= 1022 * 1).
  { intros x H. unfold Rabs. destruct (Rcase_abs x); lra. }
  constructor; [|constructor; [|constructor]]; [destruct (O wd_1 eq_refl) as (O1 & O2 & O3)|destruct (O wd_2 eq_refl) as (O1 & O2 & O3)]; (split; [exact O1|]); (split; [exact O2|]); (split; [exact O3|]); intros q Hq.
  - destruct Hq as [<-|[<-|[]]]; unfold tn_P, tn_Q.
    + split; [reflexivity|]. split; [repeat apply Forall_cons; try apply Forall_nil; apply B; lra|]. split; [exact tn_clear_P|]. split.
      * intros i k L. destruct i as [|[|[|i]]]; [..|cbn in L; lia]; cbn [nth world repeat]; [apply (dr_off _ _ 2)|apply (dr_off _ _ 0)|apply (dr_off _ _ 1)]; lra.
      * intros i L. destruct i as [|[|[|i]]]; [..|lia]; cbn [nth fst snd wd_1]; cbv zeta; (apply and_assoc; split; [apply D; lra|]).
        -- right. left. exists tn_Q. split; [right; now left|]. unfold tn_Q. cbn [nth]. lra.
        -- apply Z.
        -- apply (dr_room _ _ _ 1 f1 RQ); lra.
    + split; [reflexivity|]. split; [repeat apply Forall_cons; try apply Forall_nil; apply B; lra|]. split; [exact tn_clear_Q|]. split.
      * intros i k L. destruct i as [|[|[|i]]]; [..|cbn in L; lia]; cbn [nth world repeat]; [apply (dr_off _ _ 4)|apply (dr_off _ _ 0)|apply (dr_off _ _ 0)]; lra.
      * intros i L. destruct i as [|[|[|i]]]; [..|lia]; cbn [nth fst snd wd_1]; cbv zeta; (apply and_assoc; split; [apply D; lra|]).
        -- apply (dr_room _ _ _ 4 _ RS); lra.
        -- apply Z.
        -- apply Z.
  - destruct Hq as [<-|[]]; unfold wd_N.
    split; [reflexivity|]. split; [repeat apply Forall_cons; try apply Forall_nil; apply B; lra|]. split; [exact wd_clear_N|]. split.
    + intros i k L. destruct i as [|[|[|i]]]; [..|cbn in L; lia]; cbn [nth world repeat]; [apply (dr_off _ _ (-2))|apply (dr_off _ _ 0)|apply (dr_off _ _ 1)]; lra.
    + intros i L. destruct i as [|[|[|i]]]; [..|lia]; cbn [nth fst snd wd_2]; cbv zeta; (apply and_assoc; split; [apply D; lra|]).
      -- left. lra.
      -- apply Z.
      -- apply (dr_room _ _ _ 1 f1 R1); lra.
Qed.
Lemma dr_driven : driven 3 (max_range sm_lidar) f1 [wd_1; wd_2] dr_frames.
Proof.
  destruct wl_sm as (_ & _ & _ & _ & VL & R1'). destruct dr_rounds as (R0 & R1 & RN & RP & RQ & RS).
  split; [rewrite VL, R1'; exact dr_reach|].
  assert (S0 : Forall2 rounds_to [0; 0; 0] sm_b) by (repeat apply Forall2_cons; try apply Forall2_nil; assumption).
  repeat apply Forall2_cons; [| |apply Forall2_nil]; cbn [fst snd]; (split; [|split; apply as_is_order]); split; try reflexivity; (split; [reflexivity|]); (split; [exact S0|]); cbn [fst snd wd_1 wd_2 tn_P tn_Q wd_N].
  - change (pc_points dr_cloud) with [tn_p; tn_q]. unfold tn_P, tn_Q, tn_p, tn_q. apply Forall2_cons; [|apply Forall2_cons; [|apply Forall2_nil]]; repeat apply Forall2_cons; try apply Forall2_nil; assumption.
  - change (pc_points wd_a2) with [wd_n]. unfold wd_N, wd_n. apply Forall2_cons; [|apply Forall2_nil]; repeat apply Forall2_cons; try apply Forall2_nil; assumption.
Qed.

Definition dr_same (o : occ_map) : bool := wd_same (om_grid o) [4; 0; 1]%Z (f32_lit 85 100) && wd_same (om_grid o) [2; 0; 0]%Z (f32_lit (-8) 10).
Lemma dr_example : (map_range 3 f1 2 /\ (2 <= 2 ^ 13)%Z /\ bpow radix2 (-30) <= real f1 <= bpow radix2 30) /\
  (fltb f0 (max_range sm_lidar) = true /\ finite (max_range sm_lidar) /\ real (max_range sm_lidar) <= 1048576 * real f1) /\
  (signs_ok sm_lidar /\ fle f0 (occupied_threshold_logodds sm_lidar) /\ fltb (occupied_threshold_logodds sm_lidar) (evidence sm_lidar f0 true) = true) /\
  driven 3 (max_range sm_lidar) f1 [wd_1; wd_2] dr_frames /\ Forall (sees 3 (real (max_range sm_lidar)) (real f1) wl_walls) [wd_1; wd_2] /\
  exists o, map_drive 3 sm_lidar f1 2 3072 dr_frames = Ret o /\ gm_get (om_grid o) [4; 0; 1]%Z = Ret (f32_lit 85 100) /\ gm_get (om_grid o) [2; 0; 0]%Z = Ret (f32_lit (-8) 10).
Proof.
  destruct wl_first as (_ & M & _ & SE & SG & _). destruct wl_sm as (_ & H1 & H2 & H3 & VL & R1).
  split; [split; [exact M|]; split; [lia|]; rewrite R1; change 1 with (bpow radix2 0); split; apply bpow_le; lia|]. split; [auto|]. split; [exact SG|]. split; [exact dr_driven|]. split; [exact SE|].
  assert (K : match map_drive 3 sm_lidar f1 2 3072 dr_frames with Ret o => dr_same o | _ => false end = true) by (vm_compute; reflexivity).
  apply ret_ex in K. destruct K as (o & E & K). exists o. split; [exact E|]. unfold dr_same in K. rewrite andb_true_iff in K. destruct K as [K1 K2]. apply wd_same_ok in K1, K2. auto.
Qed.
Lemma dr_storable : bpow radix2 (-30) <= real f1 <= bpow radix2 30 /\ Forall (in_reach 3 (11 / 4) (real f1)) [wd_1; wd_2].
Proof.
  split; [exact (proj2 (proj2 (proj1 dr_example)))|]. destruct wl_sm as (_ & _ & _ & _ & _ & R1). rewrite R1. exact dr_reach.
Qed.

Definition dr_full (o : occ_map) : bool := wd_same (om_grid o) [6; 0; 0]%Z (f32_lit 85 100) && wd_same (om_grid o) [5; 0; 0]%Z (f32_lit (-4) 10).
Lemma dr_unlimited : (map_range 3 f1 2 /\ (2 <= 2 ^ 13)%Z /\ bpow radix2 (-30) <= real f1 <= bpow radix2 30) /\ fltb f0 (max_range fu_lidar) = false /\
  (signs_ok fu_lidar /\ fle f0 (occupied_threshold_logodds fu_lidar) /\ fltb (occupied_threshold_logodds fu_lidar) (evidence fu_lidar f0 true) = true) /\
  driven 3 (max_range sm_lidar) f1 [wd_1; wd_2] dr_frames /\ Forall (full_sees 3 (real f1) wl_walls) [wd_1; wd_2] /\
  exists o, map_drive 3 fu_lidar f1 2 3072 dr_frames = Ret o /\ gm_get (om_grid o) [6; 0; 0]%Z = Ret (f32_lit 85 100) /\ gm_get (om_grid o) [5; 0; 0]%Z = Ret (f32_lit (-4) 10).
Proof.
  destruct fu_walls as (_ & _ & NL & _ & SE & SG & _). split; [exact (proj1 dr_example)|]. split; [exact NL|]. split; [exact SG|]. split; [exact dr_driven|]. split; [exact SE|].
  assert (K : match map_drive 3 fu_lidar f1 2 3072 dr_frames with Ret o => dr_full o | _ => false end = true) by (vm_compute; reflexivity).
  apply ret_ex in K. destruct K as (o & E & K). exists o. split; [exact E|]. unfold dr_full in K. rewrite andb_true_iff in K. destruct K as [K1 K2]. apply wd_same_ok in K1, K2. auto.
Qed.

Lemma dr_order : (map_range 3 f1 2 /\ map_range 3 f1 4 /\ (bpow radix2 (-30) <= real f1 <= bpow radix2 30)%R) /\
  (fltb f0 (max_range sm_lidar) = true /\ finite (max_range sm_lidar) /\ (real (max_range sm_lidar) <= 1048576 * real f1)%R) /\
  driven 3 (max_range sm_lidar) f1 [wd_1; wd_2] dr_frames /\ driven 3 (max_range sm_lidar) f1 [wd_2; wd_1] (rev dr_frames) /\ Permutation [wd_1; wd_2] [wd_2; wd_1] /\
  Forall (sees 3 (real (max_range sm_lidar)) (real f1) wl_walls) [wd_1; wd_2].
Proof.
  destruct dr_example as ((M2 & _ & RB) & LM & _ & D & SE & _). split; [split; [exact M2|]; split; [exact (proj1 (proj2 (proj2 (proj2 fu_tiles))))|exact RB]|]. split; [exact LM|]. split; [exact D|]. split; [|split; [apply perm_swap|exact SE]].
  destruct D as [IR F]. unfold dr_frames in *. inversion IR as [|? ? I1 I2]; subst. inversion I2 as [|? ? I3 I4]; subst. inversion F as [|? ? ? ? F1 F2]; subst. inversion F2 as [|? ? ? ? F3 F4]; subst.
  split; [exact (Forall_cons _ I3 (Forall_cons _ I1 (Forall_nil _)))|exact (Forall2_cons _ _ F3 (Forall2_cons _ _ F1 (Forall2_nil _)))].
Qed.

(** A wall that is taken down or put up (C97). *)
Lemma dr_wall_reach : forall b M, 4 <= M -> in_reach 3 M 1 (wl_scan b).
Proof.
  intros b M HM. rewrite wl_scan_eq. destruct dr_rounds as (R0 & _). destruct tn_numbers as ((_ & V0) & _ & (F2 & V2) & _).
  assert (R2 : forall b, rounds_to (wl_x b) (f32_lit (if b then 2 else 3) 1)).
  { intros c. pose proof (wl_whole c) as W. inversion W as [|? ? ? ? [F V] _]; subst. apply (dr_sum (f32_lit (if c then 2 else 3) 1) f0); [destruct c; vm_compute; reflexivity|exact F|]. rewrite V0. unfold real in *. lra. }
  assert (Vx : real (f32_lit (if b then 2 else 3) 1) = wl_x b) by (pose proof (wl_whole b) as W; inversion W as [|? ? ? ? [F V] _]; subst; exact V).
  assert (B : forall x, -5 <= x <= 5 -> Rabs x <= 16000 * 1) by (intros x H; apply Rabs_le; lra).
  assert (Z : forall i s, has_room i 1 s 0) by (intros i s; apply (dr_room i s 0 0 f0 R0); lra).
  assert (X : wl_x b = IZR (if b then 2 else 3)) by (destruct b; reflexivity). assert (Xb : 2 <= wl_x b <= 3) by (destruct b; unfold wl_x; lra).
  split; [reflexivity|]. split; [repeat apply Forall_cons; try apply Forall_nil; apply B; lra|]. split.
  - intros i L. cbv zeta. cbn [fst]. assert (E : nth i [0; 0; 0] 0 = 0) by (destruct i as [|[|[|i]]]; [reflexivity..|lia]). rewrite E. split; [left; lra|]. split; [left; lra|apply Z].
  - intros q [<-|[]]. cbn [fst]. split; [reflexivity|]. split; [repeat apply Forall_cons; try apply Forall_nil; apply B; lra|]. split; [exact (wl_clear b M HM)|]. split.
    + intros i k L. destruct i as [|[|[|i]]]; [..|cbn in L; lia]; cbn [nth world repeat]; [apply (dr_off _ _ (if b then 2 else 3)%Z)|apply (dr_off _ _ 0)|apply (dr_off _ _ 0)]; lra.
    + intros i L. destruct i as [|[|[|i]]]; [..|lia]; cbn [nth]; cbv zeta; (apply and_assoc; split; [unfold Rabs; destruct Rcase_abs; lra|]); [|apply Z|apply Z].
      apply (dr_room _ _ _ (if b then 2 else 3)%Z _ (R2 b)); lra.
Qed.
Lemma dr_changed : ln_accurate near_ln /\ (map_range 3 f1 2 /\ (bpow radix2 (-30) <= real f1 <= bpow radix2 30)%R /\ (real DEFAULT_MAX_RANGE <= 1048576 * real f1)%R) /\
  forall b i j, (exists fs, driven 3 DEFAULT_MAX_RANGE f1 (map wl_scan (repeat (negb b) i) ++ map wl_scan (repeat b j)) fs) /\
    Forall (sees 3 (real DEFAULT_MAX_RANGE) (real f1) (wl_wall b)) (map wl_scan (repeat b j)) /\
    Forall2 (verdict 3 (real DEFAULT_MAX_RANGE) (real f1) [2; 0; 0]%Z) (map wl_scan (repeat b j)) (repeat (Some b) j).
Proof.
  destruct wl_default as (A & M & B & H). split; [exact A|]. pose proof (proj2 (proj2 (proj1 dr_example))) as RB. split; [auto|]. destruct tn_numbers as (_ & (_ & R1) & _). intros b i j.
  destruct (H (with_limit sm_lidar DEFAULT_MAX_RANGE) b i j eq_refl) as (_ & H1 & H2). split; [|auto].
  assert (IR : Forall (in_reach 3 (real DEFAULT_MAX_RANGE) (real f1)) (map wl_scan (repeat (negb b) i) ++ map wl_scan (repeat b j))).
  { rewrite <- map_app. apply Forall_forall. intros s Hs. apply in_map_iff in Hs. destruct Hs as (c & <- & _). rewrite R1. apply dr_wall_reach. rewrite range_sixty. lra. }
  destruct (drive_stored 3 f1 RB _ _ IR) as (fr & F). exists (map (fun f => (f, (as_is, as_is))) fr). split; [exact IR|]. clear - F.
  induction F; constructor; [split; [assumption|split; apply as_is_order]|assumption].
Qed.

(** A point nearer to a border than the f32s are to one another. *)
Definition dr_edge : exact_scan := ([0; 0; 0], [[5 / 2 - / 33554432; 0; 0]]).
Definition dr_edge_cloud : matrix := mkMatrix 3 1 [f32_lit 5 2; f0; f0].
Definition dr_edge_ok (o : occ_map) : bool :=
  let cb := cb_from_bounds (gm_bounds (om_grid o)) f1 in
  in_boxb cb [2; 0; 0]%Z && in_boxb cb [3; 0; 0]%Z &&
  match om_occupied o (map2 Z.sub [2; 0; 0]%Z (cmin cb)) with Ret false => true | _ => false end && match om_occupied o (map2 Z.sub [3; 0; 0]%Z (cmin cb)) with Ret true => true | _ => false end.
Lemma dr_rounding : exists d r t m fuel s f o cb w w', map_range d r t /\ fltb f0 (max_range m) = false /\ (signs_ok m /\ fle f0 (occupied_threshold_logodds m) /\ fltb (occupied_threshold_logodds m) (evidence m f0 true) = true) /\
  stored d s f /\ map_drive d m r t fuel [(f, (as_is, as_is))] = Ret o /\ covers_cells d r t (om_grid o) cb /\ in_box cb w /\ in_box cb w' /\
  (forall v, full_hits d (real r) s v <-> v = w) /\ w' <> w /\ om_occupied o (map2 Z.sub w (cmin cb)) = Ret false /\ om_occupied o (map2 Z.sub w' (cmin cb)) = Ret true.
Proof.
  destruct dr_unlimited as ((M & _) & NL & SG & _). destruct dr_rounds as (R0 & _). destruct tn_numbers as ((_ & V0) & (_ & R1) & _ & _ & _ & (_ & T) & _).
  destruct (quarter (f32_lit 5 2) 10 ltac:(vm_compute; reflexivity)) as [F5 V5].
  assert (RX : rounds_to (5 / 2 - / 33554432) (f32_lit 5 2)) by (apply (dr_sum (f32_lit 5 2) (f32_lit (-1) 33554432)); [vm_compute; reflexivity|exact F5|rewrite V5, T; lra]).
  assert (K : match map_drive 3 fu_lidar f1 2 3072 [((sm_b, dr_edge_cloud), (as_is, as_is))] with Ret o => dr_edge_ok o | _ => false end = true) by (vm_compute; reflexivity).
  apply ret_ex in K. destruct K as (o & E & K). unfold dr_edge_ok in K. cbv zeta in K. rewrite !andb_true_iff in K. destruct K as [[[K1 K2] K3] K4]. apply in_boxb_iff in K1, K2.
  exists 3%nat, f1, 2%Z, fu_lidar, 3072%nat, dr_edge, (sm_b, dr_edge_cloud), o, (cb_from_bounds (gm_bounds (om_grid o)) f1), [2; 0; 0]%Z, [3; 0; 0]%Z.
  split; [exact M|]. split; [exact NL|]. split; [exact SG|]. split; [|split; [exact E|]].
  - split; [vm_compute; reflexivity|]. split; [reflexivity|]. cbn [fst snd dr_edge]. split; [repeat apply Forall2_cons; try apply Forall2_nil; assumption|].
    change (pc_points dr_edge_cloud) with [[f32_lit 5 2; f0; f0]]. apply Forall2_cons; [|apply Forall2_nil]. repeat apply Forall2_cons; try apply Forall2_nil; assumption.
  - assert (RE : reachable 3 f1 2 (om_grid o)).
    { unfold map_drive in E. destruct (om_new 3 fu_lidar f1 2) as [o0| |] eqn:E0; try discriminate E. cbn [obind map_frames fst snd] in E. destruct (om_integrate 3072 as_is as_is o0 sm_b dr_edge_cloud) as [o1| |] eqn:E1; try discriminate E. cbn [obind] in E. injection E as <-.
      unfold om_integrate in E1. destruct (integrate_point_cloud _ _ _ _ _ _ _) as [g'| |] eqn:G; try discriminate E1. cbn [obind] in E1. injection E1 as <-. cbn [om_grid].
      refine (integrate_reachable _ _ _ _ _ _ _ _ _ _ _ (proj2 (scanned_facts _ _ _ _ _ _ (scanned_new 3 f1 2 fu_lidar o0 E0))) _ G).
      apply cloud_request; [exact res_one|vm_compute; reflexivity|reflexivity|]. change (pc_points dr_edge_cloud) with [[f32_lit 5 2; f0; f0]]. intros p [<-|[]].
      assert (W : whole [f32_lit 5 2; f0; f0] [5 / 2; 0; 0]) by (repeat apply Forall2_cons; try apply Forall2_nil; split; try assumption; try reflexivity; rewrite V5; lra).
      refine (values_within _ _ (2 ^ 18) ltac:(lia) W _). repeat apply Forall_cons; try apply Forall_nil; apply Rabs_le; lra. }
    split; [exact (covers_cells_computed _ 3 f1 2 _ M RE)|]. split; [exact K1|]. split; [exact K2|].
    split; [|split; [discriminate|]]; [|split].
    + intros v. rewrite R1. assert (Q : nearest_cell (world 3) 1 [5 / 2 - / 33554432; 0; 0] = [2; 0; 0]%Z).
      { change (world 3) with [0; 0; 0]. unfold nearest_cell. cbn [map2]. rewrite (wl_near 2 (5 / 2 - / 33554432)), (wl_near 0 0) by (apply Rabs_lt; lra). reflexivity. }
      split.
      * intros (q & [<-|[]] & ->). exact Q.
      * intros ->. exists [5 / 2 - / 33554432; 0; 0]. split; [now left|]. now rewrite Q.
    + destruct (om_occupied o _) as [[|]| |]; [discriminate K3|reflexivity|discriminate K3|discriminate K3].
    + destruct (om_occupied o (map2 Z.sub [3; 0; 0]%Z _)) as [[|]| |]; [reflexivity|discriminate K4..].
Qed.

(** Four points a third of a millimetre off those of C98, with the default numbers. *)
Definition dr_start : list R := [/ 3000; 0; 0].
Definition dr_scan : exact_scan := tr_view dr_start [tr_A2; tr_B; tr_C; tr_D].
Lemma dr_start_ok : length dr_start = 3%nat /\ forall i, (i < 3)%nat -> Rabs (nth i dr_start 0) <= / 1000.
Proof. split; [reflexivity|]. intros [|[|[|i]]] H; try lia; cbn [nth dr_start]; rewrite Rabs_pos_eq; lra. Qed.
Lemma dr_nearest : forall x, -1 <= x <= 1 -> x - / 1000000 <= nearest32 x.
Proof.
  intros x H. pose proof (rnd_err x) as E. assert (B : bpow radix2 (-150) <= bpow radix2 (-24)) by (apply bpow_le; lia). change (bpow radix2 (-24)) with (/ 16777216) in B.
  assert (X : Rabs x <= 1) by (apply Rabs_le; lra). unfold u32 in E. apply Rabs_le_inv in E. change (rnd x) with (nearest32 x) in E. lra.
Qed.
Lemma dr_scan_reach : in_reach 3 (real DEFAULT_MAX_RANGE) (real DEFAULT_RESOLUTION) dr_scan.
Proof.
  destruct dr_start_ok as [Lo So]. pose proof (tr_scene_clear dr_start Lo So) as SC. destruct (tr_along dr_start Lo) as (_ & AA & AB & AC & AD). pose proof res_value as RV. rewrite range_sixty.
  set (r := real DEFAULT_RESOLUTION) in *. fold dr_scan in SC.
  assert (Lw : forall q, In q (snd dr_scan) -> length q = 3%nat /\ clear_segment 60 (world 3) r dr_start q /\ forall i, (i < 3)%nat -> -1 <= nth i q 0 <= 1).
  { intros q Hq. assert (OB : forall i k, (i < 3)%nat -> 3 / 16 * r <= Rabs (nth i q 0 - (IZR k + / 2) * r)) by (intros i k Hi; destruct (SC i Hi) as (_ & _ & _ & K); apply (K q Hq)).
    pose proof Hq as I. cbn [snd dr_scan tr_view] in I. apply in_map_iff in I. destruct I as (p & <- & Hp).
    assert (J : exists j, along j p) by (destruct Hp as [<-|[<-|[<-|[<-|[]]]]]; eexists; eassumption). destruct J as [j Aj]. split; [exact (tr_length dr_start Lo So p (proj1 Aj))|]. split; [exact (tr_clear dr_start Lo So j p Aj OB)|].
    intros i Hi. rewrite (tr_nth dr_start Lo So p i (proj1 Aj) Hi). destruct Aj as [_ Aj]. destruct (Aj i Hi) as [B _]. specialize (So i Hi). apply Rabs_le_inv in B, So. lra. }
  assert (AL : forall l, length l = 3%nat -> (forall i, (i < 3)%nat -> -1 <= nth i l 0 <= 1) -> Forall (fun x => Rabs x <= 16000 * r) l).
  { intros l L H. apply Forall_forall. intros x Hx. apply (In_nth _ _ 0) in Hx. destruct Hx as (i & Hi & <-). rewrite L in Hi. specialize (H i Hi). apply Rabs_le. rewrite RV. lra. }
  assert (S1 : forall i, (i < 3)%nat -> -1 <= nth i dr_start 0 <= 1) by (intros i Hi; specialize (So i Hi); apply Rabs_le_inv in So; lra).
  split; [exact Lo|]. split; [exact (AL _ Lo S1)|]. split.
  - intros i Hi. cbv zeta. destruct (SC i Hi) as (C1 & C2 & _). split; [|split].
    + destruct C1 as [C1|(q & Iq & C1)]; [now left|right; exists q; split; [exact Iq|]; rewrite RV in C1; lra].
    + destruct C2 as [C2|(q & Iq & C2)]; [now left|right; exists q; split; [exact Iq|]; rewrite RV in C2; lra].
    + right. left. destruct i as [|[|[|i]]]; [exists (tr_at dr_start tr_B)|exists (tr_at dr_start tr_C)|exists (tr_at dr_start tr_D)|lia]; (split; [cbn [snd dr_scan tr_view map In]; tauto|]);
        cbn [fst dr_scan tr_view nth dr_start]; unfold tr_at, dr_start, tr_B, tr_C, tr_D; cbn [map2 nth]; rewrite RV; lra.
  - intros q Hq. destruct (Lw q Hq) as (Lq & CS & Bq). split; [exact Lq|]. split; [exact (AL _ Lq Bq)|]. split; [exact CS|].
    assert (P : 0 < r) by (rewrite RV; lra). split.
    + intros i k Hi. rewrite Lq in Hi. rewrite tr_world, Rplus_0_l. destruct (SC i Hi) as (_ & _ & _ & K). destruct (K q Hq) as (_ & _ & K'). specialize (K' k). lra.
    + intros i Hi. cbv zeta. destruct (SC i Hi) as (_ & _ & _ & K). destruct (K q Hq) as (K1 & K2 & _). change (fst dr_scan) with dr_start in *. rewrite (Rabs_minus_sym (nth i dr_start 0)). split; [right; lra|]. split.
      * specialize (Bq i Hi). specialize (S1 i Hi). apply Rabs_le. rewrite RV. lra.
      * destruct K1 as [K1|[(q' & Iq & K1)|(k & K1)]]; [left; lra|right; left; exists q'; split; [exact Iq|lra]|]. right. right. exists k. pose proof (dr_nearest _ (Bq i Hi)). rewrite RV in *. lra.
Qed.
Lemma dr_default : ln_accurate near_ln /\ (exists fs, driven 3 DEFAULT_MAX_RANGE DEFAULT_RESOLUTION [dr_scan; dr_scan] fs) /\
  Forall (sees 3 (real DEFAULT_MAX_RANGE) (real DEFAULT_RESOLUTION) tr_walls) [dr_scan; dr_scan].
Proof.
  split; [exact near_ln_accurate|]. destruct dr_start_ok as [Lo So]. pose proof dr_scan_reach as IR. pose proof res_value as RV. split.
  - assert (RB : bpow radix2 (-30) <= real DEFAULT_RESOLUTION <= bpow radix2 30).
    { split; [apply Rle_trans with (bpow radix2 (-4)); [apply bpow_le; lia|change (bpow radix2 (-4)) with (/ 16); lra]|apply Rle_trans with (bpow radix2 0); [change (bpow radix2 0) with 1; lra|apply bpow_le; lia]]. }
    destruct (scan_stored 3 DEFAULT_RESOLUTION RB _ _ IR) as (f & Hf). exists [(f, (as_is, as_is)); (f, (as_is, as_is))].
    split; [repeat (apply Forall_cons; [exact IR|]); apply Forall_nil|]. repeat (apply Forall2_cons; [split; [exact Hf|]; split; apply as_is_order|]). apply Forall2_nil.
  - rewrite range_sixty. assert (SE : sees 3 60 (real DEFAULT_RESOLUTION) tr_walls dr_scan) by (apply (tr_sees dr_start Lo So); intros p Hp; cbn [In] in *; tauto).
    repeat (apply Forall_cons; [exact SE|]). apply Forall_nil.
Qed.
