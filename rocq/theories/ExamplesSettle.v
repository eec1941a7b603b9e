(** A recording with two frames that disagree: the object in world cell [1; 2] is there in the first only. *)
From Coq Require Import ZArith List Bool Reals Lra Lia.
From Flocq Require Import Core BinarySingleNaN.
From Verif Require Import Base F32 Arith Geom NdArray GridMap RayCaster NoiseModel Spec SpecMap SpecNoise SpecOdds OddsProofs GridProofs ExpandProofs MapProofs NoiseProofs ScanProofs ForgetProofs Examples ExamplesMap ExamplesNoise Viz SpecViz VizProofs MainProofs ProgramProofs LiveProofs CornerProofs SettleProofs ExamplesLive ExamplesForget F64 Kitti SpecKitti ExamplesKitti Pose SpecPose SpecMain PoseProofs StartProofs ExamplesPose SceneProofs ExamplesScene.
Open Scope Z_scope.

Definition rec_blink : recording := mkRec [ex_zero; ex_zero] [ex_scan1; ex_scan5].
Lemma rec_blink_ok : recording_ok 2 tenth 100 rec_blink.
Proof.
  split; [split; [reflexivity|discriminate]|]. split; [exact ex_range100|]. split; [lia|]. split; [apply rec_static_ok|].
  exact (Forall_cons (ex_zero, ex_scan1) ex_frame1 (Forall_cons (ex_zero, ex_scan5) ex_frame5 (Forall_nil _))).
Qed.
Lemma rec_blink_lowest : first_lowest rec_blink.
Proof.
  intros c0 c E H. injection E as <-. assert (Z : bmin (pc_bounds ex_scan1) = bmin (pc_bounds ex_scan5)) by reflexivity.
  assert (K : bmin (pc_bounds c) = bmin (pc_bounds ex_scan1)) by (destruct H as [<-|[<-|[]]]; [reflexivity|exact (eq_sym Z)]).
  rewrite K. generalize (bmin (pc_bounds ex_scan1)). intro l. induction l; constructor; [apply Rle_refl|assumption].
Qed.
Lemma new_exists : forall m, exists o, om_new 2 m tenth 100 = Ret o.
Proof.
  intro m. assert (Q : match gm_new tenth (bounds_empty 2) 100 default_cell_value with Ret _ => true | _ => false end = true) by (vm_compute; reflexivity).
  unfold om_new. destruct (gm_new tenth (bounds_empty 2) 100 default_cell_value) as [g| |]; try discriminate Q. eexists. reflexivity.
Qed.

(** One observation decides. *)
Definition swing : lidar := mkLidar (f32_lit 2 1) (f32_lit (-2) 1) (f32_lit (-1) 1) (f32_lit 1 1) f0 DEFAULT_MAX_RANGE.
Lemma swing_ok : addable swing /\ limit_near (max_range swing) tenth.
Proof. split; [repeat split; vm_compute; reflexivity|exact ex_limit60]. Qed.
Definition blinks (k : nat) : list (option bool) := map (fun i => Some (Nat.even i)) (seq 0 k).
Lemma swing_value : forall k, fold_left (observe swing) (blinks (S k)) f0 = if Nat.even k then f32_lit 1 1 else f32_lit (-1) 1.
Proof.
  assert (H0 : observe swing f0 (Some true) = f32_lit 1 1) by (apply B2SF_inj; vm_compute; reflexivity).
  assert (H1 : observe swing (f32_lit (-1) 1) (Some true) = f32_lit 1 1) by (apply B2SF_inj; vm_compute; reflexivity).
  assert (H2 : observe swing (f32_lit 1 1) (Some false) = f32_lit (-1) 1) by (apply B2SF_inj; vm_compute; reflexivity).
  induction k as [|k IH]; [exact H0|]. unfold blinks. rewrite seq_S, map_app, fold_left_app. fold (blinks (S k)). rewrite IH. cbn [Nat.add map fold_left].
  rewrite (Nat.even_succ k), <- Nat.negb_even. destruct (Nat.even k); [exact H2|exact H1].
Qed.

Lemma blink_state : forall tr s, reaches rec_blink 2 swing tenth 100 tr s -> integrations tr <> O ->
  exists cb, covers_cells 2 tenth 100 (om_grid (grid s)) cb /\ cells_in_isize (map2 Z.sub [1; 2] (cmin cb)) /\
    om_occupied (grid s) (map2 Z.sub [1; 2] (cmin cb)) = Ret (Nat.odd (integrations tr)).
Proof.
  intros tr s H Hn. destruct (program_map rec_blink 2 tenth 100 swing tr s rec_blink_ok (proj2 swing_ok) H) as (L & rest & ST & LL & _ & SC).
  assert (SV : Forall2 (says (max_range swing) tenth [1; 2]) L (blinks (length L))).
  { assert (N : forall i x, nth_error L i = Some x -> says (max_range swing) tenth [1; 2] x (Some (Nat.even i))).
    { intros i [o c] Hi. destruct (cyclic_run rec_blink 2 swing tenth 100 tr s i o c (proj1 rec_blink_ok) H) as [C1 C2].
      { rewrite ST. rewrite nth_error_app1; [assumption|]. apply nth_error_Some. congruence. }
      change (length (clouds rec_blink)) with 2%nat in *. change (max_range swing) with DEFAULT_MAX_RANGE.
      rewrite <- (Nat.bit0_mod i) in C1, C2. rewrite Nat.bit0_odd in C1, C2. rewrite <- Nat.negb_odd. destruct (Nat.odd i); cbn in C1, C2; injection C1 as <-; injection C2 as <-; [exact ex_says5|exact ex_says1]. }
    assert (G : forall L a, (forall i x, nth_error L i = Some x -> says (max_range swing) tenth [1; 2] x (Some (Nat.even (a + i)))) ->
      Forall2 (says (max_range swing) tenth [1; 2]) L (map (fun i => Some (Nat.even i)) (seq a (length L)))).
    { clear. induction L as [|x L IH]; intros a N; cbn [length seq map]; constructor.
      - specialize (N 0%nat x eq_refl). now rewrite Nat.add_0_r in N.
      - apply IH. intros i y Hi. specialize (N (S i) y Hi). now rewrite Nat.add_succ_r in N. }
    exact (G L 0%nat N). }
  destruct (scans_values 2 tenth 100 swing (grid s) L [1; 2] _ ex_range100 (proj2 swing_ok) SC eq_refl SV) as (cb & CC & [WV _] & IB).
  rewrite LL in *. destruct (integrations tr) as [|k] eqn:K; [now elim Hn|]. clear Hn.
  assert (IB' : in_box cb [1; 2]) by (apply IB; left; discriminate). specialize (WV IB'). rewrite swing_value in WV.
  exists cb. split; [assumption|]. destruct (scanned_facts _ _ _ _ _ _ SC) as [Em Rg]. split.
  - pose proof (covers_wf _ _ _ _ _ ex_range100 Rg CC) as W. apply (range_isize (nd_shape (gm_data (om_grid (grid s))))); [apply (wf_storage _ _ _ _ _ W)|].
    rewrite (wf_shape _ _ _ _ _ W). apply (box_range cb); [|assumption]. destruct (wf_ordered _ _ _ _ _ W) as (L1 & L2 & _). congruence.
  - unfold om_occupied, occupied. rewrite WV, Em. cbn [obind]. rewrite Nat.odd_succ. destruct (Nat.even k); reflexivity.
Qed.

Lemma blink_forever : forall k, k <> O -> exists tr s tr' s', reaches rec_blink 2 swing tenth 100 tr s /\ run rec_blink s tr' s' /\ integrations tr = k /\ integrations tr' = 1%nat /\ ~ reads_same (grid s) (grid s').
Proof.
  intros k Hk. destruct (new_exists swing) as [o E]. destruct (all_passed rec_blink 2 tenth 100 swing o k 1 ltac:(lia) rec_blink_ok (proj2 swing_ok) E) as (tr & s & tr' & s' & H & R & N & N' & _).
  exists tr, s, tr', s'. split; [assumption|]. split; [assumption|]. split; [assumption|]. split; [assumption|]. intros (B & Sh & RS).
  destruct (blink_state tr s H ltac:(lia)) as (cb & CC & CI & O1). destruct (blink_state (tr ++ tr') s' (reaches_run _ _ _ _ _ _ _ _ _ H R) ltac:(rewrite integrations_app; lia)) as (cb' & CC' & _ & O2).
  assert (cb' = cb).
  { assert (W : forall tr s, reaches rec_blink 2 swing tenth 100 tr s -> exists cb, wf 2 tenth 100 (om_grid (grid s)) cb).
    { intros x y Hy. destruct (prog_run rec_blink 2 tenth 100 swing x y rec_blink_ok (proj2 swing_ok) Hy) as [_ [_ (L & c & _ & _ & _ & W & _) _]]. eauto. }
    destruct (W _ _ H) as [c1 W1]. destruct (W _ _ (reaches_run _ _ _ _ _ _ _ _ _ H R)) as [c2 W2].
    apply (covers_unique 2 tenth 100 (om_grid (grid s))); [apply ex_range100| |assumption].
    apply (covers_same 2 tenth 100 (om_grid (grid s'))); [assumption|apply (wf_storage _ _ _ _ _ W1)|congruence|congruence|..].
    - rewrite (wf_resolution _ _ _ _ _ W1), (wf_resolution _ _ _ _ _ W2). reflexivity.
    - rewrite (wf_tile_size _ _ _ _ _ W1), (wf_tile_size _ _ _ _ _ W2). reflexivity. }
  subst cb'. destruct (RS _ CI) as [RO1 _]. rewrite O1, O2, integrations_app, N, N' in RO1.
  rewrite Nat.add_1_r, Nat.odd_succ, <- Nat.negb_odd in RO1. injection RO1 as RO1. destruct (Nat.odd k); discriminate RO1.
Qed.

Lemma blink_replayed : forall K, exists X, replayed 2 tenth 100 swing (combine (origins rec_blink) (clouds rec_blink)) X K.
Proof.
  intro K. destruct (new_exists swing) as [o E]. destruct (all_passed rec_blink 2 tenth 100 swing o K 1 ltac:(lia) rec_blink_ok (proj2 swing_ok) E) as (tr & s & _ & _ & H & _ & N & _).
  destruct (replay_run rec_blink 2 tenth 100 swing rec_blink_ok (proj2 swing_ok) tr s H) as (X & R & _). exists X. now rewrite N in R.
Qed.
Lemma blink_requests : Forall (fun s => matrix_ok (snd s) /\ request_ok 2 tenth (pc_bounds (snd s))) (combine (origins rec_blink) (clouds rec_blink)).
Proof.
  destruct rec_blink_ok as (_ & M & _ & _ & F). eapply Forall_impl; [|exact F]. intros [o c] H. split; [apply H|]. exact (frame_request 2 tenth o c (proj1 (proj2 M)) H).
Qed.
Lemma blink_passed : forall k, exists tr s tr' s', reaches rec_blink 2 swing tenth 100 tr s /\ run rec_blink s tr' s' /\
  integrations tr = k /\ integrations tr' = length (clouds rec_blink) /\ render s = RUnlockGrid /\ render s' = RUnlockGrid.
Proof.
  intro k. destruct (new_exists swing) as [o E]. exact (all_passed rec_blink 2 tenth 100 swing o k 2 ltac:(lia) rec_blink_ok (proj2 swing_ok) E).
Qed.

(** A drive as in C73, with the default model: any number of scans can be waited for. *)
Lemma still_passed : forall k, exists rec o tr s tr' s', ln_accurate near_ln /\ om_default 3 near_ln = Ret o /\ recording_ok 3 DEFAULT_RESOLUTION DEFAULT_TILE_SIZE rec /\ first_lowest rec /\
  run rec (initial o) tr s /\ run rec s tr' s' /\ integrations tr = k /\ integrations tr' = length (clouds rec) /\ render s = RUnlockGrid /\ render s' = RUnlockGrid.
Proof.
  intro k. destruct still_runs as (rec & _ & _ & _ & _ & E & _). exists rec.
  assert (RO : recording_ok 3 DEFAULT_RESOLUTION DEFAULT_TILE_SIZE rec).
  { apply (drive_recording ex_sys still_lookup [name10; name02] name02 rec still_vs still_ms still_scenes E eq_refl still_drive); [discriminate|exact ex_trig|exact still_measured|exact still_scenes_of|exact still_clear]. }
  assert (FL : first_lowest rec).
  { apply (drive_lowest ex_sys still_lookup [name10; name02] name02 rec still_vs still_ms still_scenes E eq_refl still_drive); [exact ex_trig|exact still_measured|exact still_scenes_of|exact still_lowest]. }
  destruct (default_values near_ln near_ln_accurate) as (m & Em & _ & MR). pose proof default_limit as HM. rewrite <- MR in HM.
  assert (Q : match gm_new DEFAULT_RESOLUTION (bounds_empty 3) DEFAULT_TILE_SIZE default_cell_value with Ret _ => true | _ => false end = true) by (vm_compute; reflexivity).
  assert (En : exists o, om_new 3 m DEFAULT_RESOLUTION DEFAULT_TILE_SIZE = Ret o).
  { unfold om_new. destruct (gm_new DEFAULT_RESOLUTION (bounds_empty 3) DEFAULT_TILE_SIZE default_cell_value) as [g| |]; [eexists; reflexivity|discriminate Q|discriminate Q]. }
  destruct En as [o En]. exists o.
  assert (NZ : (0 < length (clouds rec))%nat). { destruct RO as ((_ & NE) & _). destruct (clouds rec); [now elim NE|cbn [length]; lia]. }
  destruct (all_passed rec 3 DEFAULT_RESOLUTION DEFAULT_TILE_SIZE m o k _ NZ RO HM En) as (tr & s & tr' & s' & (o' & En' & R) & R' & K & K' & U & U').
  rewrite En in En'. injection En' as <-. exists tr, s, tr', s'. split; [exact near_ln_accurate|].
  split; [unfold om_default; rewrite Em; exact En|]. exact (conj RO (conj FL (conj R (conj R' (conj K (conj K' (conj U U'))))))).
Qed.

Lemma every_round_needed : exists rec d r t m, recording_ok d r t rec /\ limit_near (max_range m) r /\ addable m /\ length (clouds rec) = 2%nat /\
  forall k, k <> O -> exists tr s tr' s', reaches rec d m r t tr s /\ run rec s tr' s' /\ integrations tr = k /\ integrations tr' = 1%nat /\ ~ reads_same (grid s) (grid s').
Proof.
  exists rec_blink, 2%nat, tenth, 100, swing. exact (conj rec_blink_ok (conj (proj2 swing_ok) (conj (proj1 swing_ok) (conj eq_refl blink_forever)))).
Qed.
