(** A scene that changes: an object in world cell [1; 2] that is removed or put there. *)
From Coq Require Import ZArith List Bool Reals Lra Lia.
From Flocq Require Import Core BinarySingleNaN.
From Verif Require Import Base F32 Arith Geom NdArray GridMap RayCaster NoiseModel Spec SpecMap SpecNoise SpecOdds OddsProofs GridProofs ExpandProofs MapProofs NoiseProofs ScanProofs ForgetProofs Examples ExamplesMap ExamplesNoise Viz SpecViz VizProofs ProgramProofs ExamplesLive.
Open Scope Z_scope.

(** Any list of frames in range can be scanned. *)
Lemma frames_scanned : forall d r t m L, map_range d r t -> t <= 2 ^ 13 -> (bpow radix2 (-30) <= real r <= bpow radix2 30)%R -> limit_near (max_range m) r ->
  (exists o, om_new d m r t = Ret o) -> Forall (fun f => frame_ok d r (fst f) (snd f)) L -> exists o, scanned d r t m o L.
Proof.
  intros d r t m L M Ht Hr HM [o0 E0] F.
  assert (K : exists o cb, scanned d r t m o L /\ wf d r t (om_grid o) cb /\ cb_near (small t) cb).
  { induction L as [|[o c] L IH] using rev_ind.
    - destruct (p_map _ _ _ _ _ _ (prog_initial d r t m o0 M E0)) as (_ & cb & _ & _ & _ & W & N). cbn [grid initial] in W. exists o0, cb. split; [now apply scanned_new|]. split; assumption.
    - apply Forall_app in F. destruct F as [F1 F2]. inversion_clear F2 as [|? ? F3 _]. destruct (IH F1) as (x & cb & S & W & N).
      destruct (integrate_frame d r t m x L cb o c M Ht Hr HM S W N F3 3072%nat as_is as_is as_is_order as_is_order) as (_ & X1 & X2).
      destruct (X1 ltac:(lia)) as (o' & E). destruct (X2 o' E) as (S' & cb' & W' & N'). exists o', cb'. auto. }
  destruct K as (o & cb & S & _). now exists o.
Qed.

(** The beam through [1; 2] that ends at [2; 4]. *)
Definition ex_scan5 : matrix := mkMatrix 2 1 [f32_lit 2 10; f32_lit 4 10].
Lemma ex_frame5 : frame_ok 2 tenth ex_zero ex_scan5.
Proof.
  pose proof tenth_value as T. closed_float (f32_lit 2 10). closed_float (f32_lit 4 10).
  assert (L : forall k x hi, (IZR k * real tenth <= real x <= (IZR k + / 4) * real tenth)%R -> axis_safe tenth x hi) by (intros k x hi H; right; now exists k).
  split; [reflexivity|]. split; [reflexivity|]. split; [reflexivity|]. split; [exact zero14|].
  split. { repeat apply Forall_cons; try apply Forall_nil; (apply near14; [fin|]); unfold real; rewrite ?V, ?V0; apply Rabs_le; lra. }
  split; [split; repeat constructor; vm_compute; reflexivity|].
  change (bmax (pc_bounds ex_scan5)) with [nth 0 (bmax (pc_bounds ex_scan5)) f0; nth 1 (bmax (pc_bounds ex_scan5)) f0].
  split; [apply ex_safe; now left|]. intros p [<-|[]].
  change (mcol ex_scan5 0) with [f32_lit 2 10; f32_lit 4 10].
  assert (B : (0 < bpow radix2 (-40) <= / 1024)%R).
  { split; [apply bpow_gt_0|]. replace (/ 1024)%R with (bpow radix2 (-10)) by (unfold bpow; simpl; lra). apply bpow_le. lia. }
  split; [|split; [|split]].
  - repeat apply Forall2_cons; try apply Forall2_nil; [apply (L 2)|apply (L 4)]; rewrite T; unfold real; rewrite ?V, ?V0; lra.
  - unfold real in *. rewrite T. repeat apply Forall2_cons; try apply Forall2_nil; right; rewrite ?V, ?V0; simpl (B2R f0); rewrite Rabs_left; lra.
  - unfold real in *. rewrite T. repeat apply Forall2_cons; try apply Forall2_nil; rewrite ?V, ?V0; simpl (B2R f0); apply Rabs_le; lra.
  - intros i k Hi _. unfold real in *. rewrite T.
    assert (W : forall n x : R, (Rabs x <= / 1000000)%R -> forall j, (n = IZR j)%R -> (/ 8 * (13421773 / 134217728) <= Rabs (n * (13421773 / 134217728) + x - (IZR k + / 2) * (13421773 / 134217728)))%R).
    { intros n x Hx j ->. apply Rabs_le_inv in Hx. destruct (Z_le_gt_dec j k) as [G|G].
      - apply IZR_le in G. rewrite Rabs_left; lra.
      - assert (G' : k + 1 <= j) by lia. apply IZR_le in G'. rewrite plus_IZR in G'. rewrite Rabs_pos_eq; lra. }
    destruct i as [|[|i]]; [..|cbn in Hi; lia]; cbn [nth]; rewrite ?V, ?V0.
    + replace (13421773 / 67108864)%R with (2 * (13421773 / 134217728) + 0)%R by lra. apply (W 2%R 0%R) with (j := 2); [rewrite Rabs_R0; lra|reflexivity].
    + replace (13421773 / 33554432)%R with (4 * (13421773 / 134217728) + 0)%R by lra. apply (W 4%R 0%R) with (j := 4); [rewrite Rabs_R0; lra|reflexivity].
Qed.
Lemma ex_frame1 : frame_ok 2 tenth ex_zero ex_scan1.
Proof. destruct rec_static_ok as (_ & _ & _ & _ & F). cbn [combine origins clouds rec_static] in F. inversion_clear F. assumption. Qed.

Lemma sixty : real DEFAULT_MAX_RANGE = 60%R.
Proof. unfold DEFAULT_MAX_RANGE, real. closed_float (f32_lit 60 1). rewrite V. lra. Qed.
Lemma ex_says5 : says DEFAULT_MAX_RANGE tenth [1; 2] (ex_zero, ex_scan5) (Some false).
Proof.
  pose proof tenth_value as T. pose proof sixty as S60. closed_float (f32_lit 2 10). closed_float (f32_lit 4 10). unfold says. cbn [fst snd].
  assert (P : pc_points ex_scan5 = [[f32_lit 2 10; f32_lit 4 10]]) by reflexivity. rewrite P. unfold real in *. split.
  - exists [f32_lit 2 10; f32_lit 4 10], (/ 2)%R. split; [now left|]. split; [lra|]. split.
    + intros i Hi. unfold real. destruct i as [|[|i]]; [..|cbn in Hi; lia]; cbn [nth map seg map2 ex_zero]; rewrite ?V, ?V0, T; simpl (B2R f0); apply Rabs_le; lra.
    + right. unfold real. rewrite S60, T. unfold dist. cbn [map map2 ex_zero fold_right]. rewrite V, V0. simpl (B2R f0).
      match goal with |- (_ * sqrt ?x + _ <= _)%R => assert (X : (sqrt x <= 1)%R) end; [|lra].
      apply Rsqr_incr_0_var; [|lra]. rewrite Rsqr_sqrt; unfold Rsqr; lra.
  - intros q [<-|[]] H. specialize (H 0%nat ltac:(cbn; lia)). unfold real in H. cbn [nth map] in H. rewrite V, T in H. apply Rabs_le_inv in H. lra.
Qed.
Lemma ex_says1 : says DEFAULT_MAX_RANGE tenth [1; 2] (ex_zero, ex_scan1) (Some true).
Proof.
  destruct rec_static_says as (_ & _ & S). cbn [combine origins clouds rec_static] in S. inversion_clear S. assumption.
Qed.

(** The scene changes after [i] scans and is then seen [j] times. *)
Definition removed (i j : nat) : list (point * matrix) := repeat (ex_zero, ex_scan1) i ++ repeat (ex_zero, ex_scan5) j.
Definition added (i j : nat) : list (point * matrix) := repeat (ex_zero, ex_scan5) i ++ repeat (ex_zero, ex_scan1) j.
Lemma says_repeat : forall m r w x v n, says m r w x v -> Forall2 (says m r w) (repeat x n) (repeat v n).
Proof. intros m r w x v n H. induction n; constructor; assumption. Qed.
Lemma ex_changed : forall m i j, max_range m = DEFAULT_MAX_RANGE ->
  (exists o, scanned 2 tenth 100 m o (removed i j)) /\ (exists o, scanned 2 tenth 100 m o (added i j)) /\
  Forall2 (says DEFAULT_MAX_RANGE tenth [1; 2]) (removed i j) (repeat (Some true) i ++ repeat (Some false) j) /\
  Forall2 (says DEFAULT_MAX_RANGE tenth [1; 2]) (added i j) (repeat (Some false) i ++ repeat (Some true) j).
Proof.
  intros m i j R. assert (M : map_range 2 tenth 100) by (split; [now left|split; [exact res_tenth|lia]]).
  assert (HM : limit_near (max_range m) tenth).
  { right. rewrite R. split; [unfold DEFAULT_MAX_RANGE; fin|]. rewrite sixty, tenth_value. lra. }
  assert (N : exists o, om_new 2 m tenth 100 = Ret o).
  { assert (Q : match gm_new tenth (bounds_empty 2) 100 default_cell_value with Ret _ => true | _ => false end = true) by (vm_compute; reflexivity).
    unfold om_new. destruct (gm_new tenth (bounds_empty 2) 100 default_cell_value) as [g| |]; try discriminate Q. eexists. reflexivity. }
  assert (Hr : (bpow radix2 (-30) <= real tenth <= bpow radix2 30)%R) by apply rec_static_ok.
  assert (F : forall x n, frame_ok 2 tenth ex_zero x -> Forall (fun f : point * matrix => frame_ok 2 tenth (fst f) (snd f)) (repeat (ex_zero, x) n)).
  { intros x n H. apply Forall_forall. intros y Hy. apply repeat_spec in Hy. now subst y. }
  pose proof ex_frame1 as F1. pose proof ex_frame5 as F5. unfold removed, added.
  split; [|split; [|split]].
  - apply frames_scanned; auto; [lia|]. apply Forall_app. auto.
  - apply frames_scanned; auto; [lia|]. apply Forall_app. auto.
  - apply Forall2_app; apply says_repeat; [exact ex_says1|exact ex_says5].
  - apply Forall2_app; apply says_repeat; [exact ex_says5|exact ex_says1].
Qed.

Lemma ex_range100 : map_range 2 tenth 100.
Proof. split; [now left|split; [exact res_tenth|lia]]. Qed.
Lemma ex_limit60 : limit_near DEFAULT_MAX_RANGE tenth.
Proof. right. split; [unfold DEFAULT_MAX_RANGE; fin|]. rewrite sixty, tenth_value. lra. Qed.
Open Scope R_scope.
Lemma ex_forgets : map_range 2 tenth 100 /\ limit_near (max_range ex_lidar) tenth /\ signs_ok ex_lidar /\ moderate_model ex_lidar /\
  counts ex_lidar (- real (miss_logodds ex_lidar)) /\ counts ex_lidar (real (hit_logodds ex_lidar)) /\
  (let thr := real (occupied_threshold_logodds ex_lidar) in
   real (min_logodds ex_lidar) <= thr /\ real (max_logodds ex_lidar) - thr <= INR 9 * (1023 / 1024 * - real (miss_logodds ex_lidar)) /\
   thr < real (max_logodds ex_lidar) /\ thr - real (min_logodds ex_lidar) < INR 3 * (1023 / 1024 * real (hit_logodds ex_lidar))) /\
  (exists o, scanned 2 tenth 100 ex_lidar o (removed 7 9)) /\ (exists o, scanned 2 tenth 100 ex_lidar o (added 14 3)) /\
  Forall2 (says (max_range ex_lidar) tenth [1; 2]%Z) (removed 7 9) (repeat (Some true) 7 ++ repeat (Some false) 9) /\
  Forall2 (says (max_range ex_lidar) tenth [1; 2]%Z) (added 14 3) (repeat (Some false) 14 ++ repeat (Some true) 3) /\
  seen false (repeat (Some false) 9) = 9%nat /\ seen true (repeat (Some true) 3) = 3%nat.
Proof.
  destruct (ex_changed ex_lidar 7 9 eq_refl) as (C1 & _ & C3 & _). destruct (ex_changed ex_lidar 14 3 eq_refl) as (_ & D2 & _ & D4).
  change (max_range ex_lidar) with DEFAULT_MAX_RANGE.
  assert (H : real (hit_logodds ex_lidar) = 14260634 / 16777216) by (unfold real, ex_lidar; cbn [hit_logodds]; closed_float (f32_lit 85 100); rewrite V; lra).
  assert (M : real (miss_logodds ex_lidar) = - (13421773 / 33554432)) by (unfold real, ex_lidar; cbn [miss_logodds]; closed_float (f32_lit (-4) 10); rewrite V; lra).
  assert (A : real (min_logodds ex_lidar) = -2) by (unfold real, ex_lidar; cbn [min_logodds]; closed_float (f32_lit (-2) 1); rewrite V; lra).
  assert (B : real (max_logodds ex_lidar) = 7 / 2) by (unfold real, ex_lidar; cbn [max_logodds]; closed_float (f32_lit 35 10); rewrite V; lra).
  assert (T : real (occupied_threshold_logodds ex_lidar) = 0) by reflexivity.
  assert (B100 : 128 <= bpow radix2 100) by (change 128 with (bpow radix2 7); apply bpow_le; lia).
  split; [exact ex_range100|]. split; [exact ex_limit60|]. split; [exact ex_signs|]. split.
  { unfold moderate_model. repeat apply Forall_cons; try apply Forall_nil; (split; [unfold ex_lidar; cbn [hit_logodds miss_logodds min_logodds max_logodds occupied_threshold_logodds]; fin|]); apply Rabs_le; rewrite ?H, ?M, ?A, ?B, ?T; lra. }
  unfold counts. rewrite H, M, A, B, T. split; [split; [lra|split; apply Rabs_le; lra]|]. split; [split; [lra|split; apply Rabs_le; lra]|].
  split; [cbn [INR]; lra|]. split; [exact C1|]. split; [exact D2|]. split; [exact C3|]. split; [exact D4|]. split; reflexivity.
Qed.
Lemma ex_odds : (let p := f32_lit 7 10 in finite p /\ bpow radix2 (-80) <= real p < 1) /\ (let l := f32_lit (-2) 1 in finite l /\ Rabs (real l) <= 64).
Proof.
  cbv zeta. unfold real. closed_float (f32_lit 7 10). closed_float (f32_lit (-2) 1). rewrite V, V0.
  assert (bpow radix2 (-80) <= bpow radix2 (-1)) by (apply bpow_le; lia). change (bpow radix2 (-1)) with (/ 2) in *.
  split; (split; [fin|]); [lra|apply Rabs_le; lra].
Qed.
