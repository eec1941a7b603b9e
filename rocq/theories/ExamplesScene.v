(** A drive whose display is known: the vehicle stands still, two frames of two points each. *)
From Coq Require Import ZArith List Bool Reals Lia Lra Permutation Sorted Strings.Byte.
From Flocq Require Import Core BinarySingleNaN.
From Verif Require Import Base F32 F64 Arith Geom NdArray GridMap NoiseModel Kitti Spec SpecMap SpecNoise SpecKitti FloatFacts RoundError MathProofs KittiProofs OxtProofs DirProofs GpsProofs Examples ExamplesKitti Viz SpecViz MainProofs ProgramProofs LiveProofs Pose SpecPose SpecMain PoseProofs StartProofs ExamplesPose SceneProofs ScanProofs.
Open Scope R_scope.

(** "1 2 3 0 0 0" *)
Definition still_line : bytes := [x31; x20; x32; x20; x33; x20; x30; x20; x30; x20; x30].
Definition still_oxts : directory := mkDir (IoOk [IoOk name10; IoOk name02]) (fun _ => IoOk still_line).
(** three numbers -2 (or -1), then three numbers 65/64, each with an intensity 0 *)
Definition still_bytes (a b : byte) : bytes :=
  [x00; x00; a; b;  x00; x00; a; b;  x00; x00; a; b;  x00; x00; x00; x00;
   x00; x00; x82; x3f;  x00; x00; x82; x3f;  x00; x00; x82; x3f;  x00; x00; x00; x00].
Definition still_velodyne : directory :=
  mkDir (IoOk [IoOk name10; IoOk name02]) (fun n => if name_leb n name02 then IoOk (still_bytes x00 xc0) else IoOk (still_bytes x80 xbf)).
Definition still_folder : folder := mkFolder true true still_oxts still_velodyne.
Definition still_lookup (path : bytes) : folder := still_folder.
Definition still_oxt : oxt := mkOxt (f64_of_Z 1) (f64_of_Z 2) (f64_of_Z 3) (f32_of_Z 0) (f32_of_Z 0) (f32_of_Z 0).
Definition still_vs : list oxt := [still_oxt; still_oxt].
Definition still_cloud (l : Z) : matrix :=
  mkMatrix 3 2 [f32_of_Z l; f32_of_Z l; f32_of_Z l; f32_lit 65 64; f32_lit 65 64; f32_lit 65 64].
Definition still_ms : list matrix := [still_cloud (-2); still_cloud (-1)].

Lemma still_points : forall l, pc_points (still_cloud l) = [[f32_of_Z l; f32_of_Z l; f32_of_Z l]; [f32_lit 65 64; f32_lit 65 64; f32_lit 65 64]].
Proof. reflexivity. Qed.
Lemma still_drive : drive ex_sys still_folder still_vs still_ms.
Proof.
  split; [reflexivity|]. split; [reflexivity|]. split; [reflexivity|]. split; exists [name02; name10]; (split; [apply ex_order|]).
  - assert (K : forall n, oxt_file ex_sys still_oxts n still_oxt).
    { intro n. exists still_line, [[x31]; [x32]; [x33]; [x30]; [x30]; [x30]]. split; [reflexivity|]. split; [rewrite <- utf8_text; reflexivity|]. split; [apply fields_unique; reflexivity|].
      split; [cbn; lia|]. repeat split; reflexivity. }
    repeat (constructor; [apply K|]). constructor.
  - constructor; [|constructor; [|constructor]].
    + exists (still_bytes x00 xc0). split; [reflexivity|]. split; [reflexivity|]. split; [reflexivity|]. split; [reflexivity|].
      rewrite still_points. cbn [map seq length Nat.div Nat.divmod fst still_bytes].
      repeat (apply f_equal2; [|]); try reflexivity; apply f32_eq; vm_compute; reflexivity.
    + exists (still_bytes x80 xbf). split; [reflexivity|]. split; [reflexivity|]. split; [reflexivity|]. split; [reflexivity|].
      rewrite still_points. cbn [map seq length Nat.div Nat.divmod fst still_bytes].
      repeat (apply f_equal2; [|]); try reflexivity; apply f32_eq; vm_compute; reflexivity.
Qed.

(** The vehicle does not move. *)
Lemma still_position : forall k, exists x y z, position ex_sys still_vs k still_oxt = (x, y, z) /\ Forall (sized (/ 1000)) [x; y; z].
Proof.
  intros [|k].
  - exists f0, f0, f0. split; [reflexivity|]. repeat (apply Forall_cons; [split; [reflexivity|]; change (real f0) with 0; rewrite Rabs_R0; lra|]). apply Forall_nil.
  - unfold position, still_vs, still_oxt, oxt_gps. cbn [oxt_lat oxt_lon oxt_alt].
    set (p := (f64_of_Z 1, f64_of_Z 2, f64_of_Z 3) : gps).
    assert (A : forall n z, (Z.abs z <= n)%Z -> (n <= 2 ^ 53)%Z -> at_most n (f64_of_Z z)) by apply small_Z.
    pose proof (east nearest_cos p p nearest_cos_accurate (A 90 1 ltac:(lia) ltac:(lia))%Z (A 90 1 ltac:(lia) ltac:(lia))%Z (A 360 2 ltac:(lia) ltac:(lia))%Z (A 360 2 ltac:(lia) ltac:(lia))%Z) as X.
    pose proof (north nearest_cos p p (A 1000 1 ltac:(lia) ltac:(lia))%Z (A 1000 1 ltac:(lia) ltac:(lia))%Z) as Y.
    assert (B : at_most (2 ^ 80) (f64_of_Z 3)).
    { destruct (A 3 3 ltac:(lia) ltac:(lia))%Z as [F R]. split; [exact F|]. apply Rle_trans with (1 := R). apply IZR_le. lia. }
    pose proof (up nearest_cos p p B B) as Z. unfold nearly in *. cbv zeta in X. 
    change (sys_cos64 ex_sys) with nearest_cos.
    destruct (gps_to_meters nearest_cos p p) as [[x y] z]. cbn [fst snd] in X, Y, Z.
    destruct X as [FX X], Y as [FY Y], Z as [FZ Z].
    assert (T : bp (-149) <= / 1000) by (apply Rle_trans with (bp (-10)); [apply bpow_le; lia|change (bp (-10)) with (/ 1024); lra]).
    assert (SD : forall v, v - v = 0) by (intro; ring). rewrite !SD in X. rewrite !SD in Y. rewrite !(SD (real64 _)) in Z.
    unfold Rdiv in X, Y. repeat rewrite ?Rmult_0_l, ?Rabs_R0, ?Rmult_0_r, ?Rplus_0_l, ?Rminus_0_r in X. repeat rewrite ?Rmult_0_l, ?Rabs_R0, ?Rmult_0_r, ?Rplus_0_l, ?Rminus_0_r in Y.
    repeat rewrite ?Rabs_R0, ?Rmult_0_r, ?Rplus_0_l, ?Rminus_0_r in Z.
    exists x, y, z. split; [reflexivity|]. repeat (apply Forall_cons; [split; [assumption|lra]|]). apply Forall_nil.
Qed.
Lemma real_Z : forall z, (Z.abs z <= 2 ^ 24)%Z -> finite (f32_of_Z z) /\ real (f32_of_Z z) = IZR z.
Proof. intros z H. exact (f32_of_Z_exact z H). Qed.
Lemma real_top : finite (f32_lit 65 64) /\ real (f32_lit 65 64) = 65 / 64.
Proof. unfold real. closed_float (f32_lit 65 64). split; [reflexivity|rewrite V; lra]. Qed.

(** Points as far from the sensor in the scene as in the file. *)
Definition around (l : R) (o : list R) : scene := (o, [map (fun t => l + t) o; map (fun t => 65 / 64 + t) o]).
Lemma turned_zero : forall v, turned 0 0 0 v = v.
Proof. intros [[a b] c]. unfold turned, apply3, about_x, about_y, about_z, dot3. rewrite sin_0, cos_0. repeat (apply f_equal2; [|]); ring. Qed.
Lemma still_scene : forall k l, (Z.abs l <= 2 ^ 24)%Z -> exists o, length o = 3%nat /\ (forall i, (i < 3)%nat -> Rabs (nth i o 0) <= / 1000) /\
  scene_of ex_sys still_vs k still_oxt (still_cloud l) = around (IZR l) o.
Proof.
  intros k l L. destruct (still_position k) as (x & y & z & E & S). exists (map real [x; y; z]). split; [reflexivity|]. split.
  - inversion_clear S as [|? ? [_ X] S1]. inversion_clear S1 as [|? ? [_ Y] S2]. inversion_clear S2 as [|? ? [_ Z] _].
    intros [|[|[|i]]] H; cbn [nth map]; [assumption..|lia].
  - unfold scene_of, around. rewrite E. cbn [coords]. rewrite still_points. cbn [map]. unfold still_oxt. cbn [oxt_roll oxt_pitch oxt_yaw].
    rewrite (proj2 (real_Z 0 ltac:(lia))), !turned_zero. unfold triple. cbn [nth plus3 list3]. rewrite (proj2 (real_Z l L)), (proj2 real_top).
    reflexivity.
Qed.

Lemma nth_around : forall (f : R -> R) o i, length o = 3%nat -> (i < 3)%nat -> nth i (map f o) 0 = f (nth i o 0).
Proof. intros f o i L H. rewrite (nth_indep _ 0 (f 0)) by (rewrite map_length; lia). apply map_nth. Qed.
Lemma res_value : real DEFAULT_RESOLUTION = 13421773 / 134217728.
Proof. unfold real, DEFAULT_RESOLUTION. closed_float (f32_lit 1 10). rewrite V. lra. Qed.

Section Around.
Context (o : list R) (Lo : length o = 3%nat) (So : forall i, (i < 3)%nat -> Rabs (nth i o 0) <= / 1000).
Let r := real DEFAULT_RESOLUTION.
Lemma off_border : forall x k0 k, (IZR k0 - 1 / 4) * r <= x <= (IZR k0 + 1 / 4) * r -> 3 / 16 * r <= Rabs (x - (IZR k + / 2) * r).
Proof.
  intros x k0 k H. unfold r in *. rewrite res_value in *. destruct (Z_le_gt_dec k0 k) as [K|K].
  - apply IZR_le in K. rewrite Rabs_left1; lra.
  - assert (K' : (k + 1 <= k0)%Z) by lia. apply IZR_le in K'. rewrite plus_IZR in K'. rewrite Rabs_pos_eq; lra.
Qed.
Lemma around_clear : forall l, (l = -2 \/ l = -1)%Z -> scene_clear r (around (IZR l) o).
Proof.
  intros l Hl i L. cbv zeta. specialize (So i L). unfold around. cbn [fst snd]. pose proof (fun f => nth_around f o i Lo L) as N. set (t := nth i o 0) in *. apply Rabs_le_inv in So.
  assert (RV : r = 13421773 / 134217728) by exact res_value.
  assert (B : -2 <= IZR l <= -1) by (destruct Hl as [-> | ->]; lra).
  split; [|split; [|split]].
  - right. eexists. split; [left; reflexivity|]. rewrite N. lra.
  - right. eexists. split; [right; left; reflexivity|]. rewrite N. lra.
  - right. left. eexists. split; [right; left; reflexivity|]. rewrite N. lra.
  - intros p [<- |[<- |[]]]; rewrite N; (split; [|split]).
    + left. lra.
    + rewrite Rabs_left; lra.
    + intro k. apply (off_border _ (10 * l)). rewrite mult_IZR, RV. destruct Hl as [-> | ->]; lra.
    + right. right. exists 10%Z. rewrite RV. lra.
    + rewrite Rabs_pos_eq; lra.
    + intro k. apply (off_border _ 10). rewrite RV. lra.
Qed.
Lemma around_dist : dist (map (fun t => 65 / 64 + t) o) o <= 2.
Proof.
  destruct o as [|a [|b [|c [|]]]]; try discriminate Lo. unfold dist. cbn [map map2 fold_right]. 
  match goal with |- sqrt ?x <= 2 => replace x with (3 * (65 / 64 * (65 / 64))) by ring end. apply Rle_trans with (sqrt (2 * 2)); [apply sqrt_le_1_alt; lra|rewrite sqrt_square; lra].
Qed.
Lemma around_says : forall l, (l = -2 \/ l = -1)%Z ->
  scene_says 60 r [10; 10; 10]%Z (around (IZR l) o) (Some true) /\ scene_says 60 r [5; 5; 5]%Z (around (IZR l) o) (Some false) /\ scene_says 60 r [0; 20; 0]%Z (around (IZR l) o) None.
Proof.
  intros l Hl. pose proof around_dist as AD. assert (RV : r = 13421773 / 134217728) by exact res_value. assert (B : -2 <= IZR l <= -1) by (destruct Hl as [-> | ->]; lra).
  assert (N : forall f i, (i < 3)%nat -> nth i (map f o) 0 = f (nth i o 0)) by (intros f i; now apply nth_around).
  assert (LM : forall f : R -> R, length (map f o) = 3%nat) by (intro f; now rewrite map_length).
  assert (W : forall k i, (i < 3)%nat -> nth i [k; k; k] 0%Z = k) by (intros k [|[|[|i]]] H; [reflexivity..|lia]).
  unfold scene_says, around. cbn [fst snd]. split; [|split].
  - eexists. split; [right; left; reflexivity|]. split; [|lra]. intros i L. rewrite (N _ i L), (W _ i L). specialize (So i L). apply Rabs_le_inv in So. apply Rabs_le. rewrite RV. lra.
  - split.
    + eexists. exists (/ 2). split; [right; left; reflexivity|]. split; [lra|]. split; [|lra]. intros i L. rewrite seg_nth, (N _ i L), (W _ i L) by (try assumption; apply LM). specialize (So i L). apply Rabs_le_inv in So. apply Rabs_le. rewrite RV. lra.
    + intros q [<- |[<- |[]]] H; specialize (H 0%nat ltac:(lia)); rewrite N in H by lia; specialize (So 0%nat ltac:(lia)); cbn [nth] in H; apply Rabs_le_inv in So, H; rewrite RV in H; lra.
  - left. intros p u Ip U H. specialize (H 1%nat ltac:(lia)). specialize (So 1%nat ltac:(lia)). apply Rabs_le_inv in So. 
    destruct Ip as [<- |[<- |[]]]; rewrite seg_nth, N in H by (try assumption; try apply LM; lia); cbn [nth] in H; apply Rabs_le_inv in H; rewrite RV in H; nra.
Qed.
End Around.

Definition still_scenes : list scene := [scene_of ex_sys still_vs 0 still_oxt (still_cloud (-2)); scene_of ex_sys still_vs 1 still_oxt (still_cloud (-1))].
Lemma still_scenes_of : scenes_of ex_sys still_vs still_ms still_scenes.
Proof. split; [reflexivity|]. intros [|[|k]] v m Hv Hm; cbn [nth_error still_vs still_ms] in *; [| |destruct k; discriminate Hv]; injection Hv as <-; injection Hm as <-; reflexivity. Qed.
Lemma still_clear : Forall (scene_clear (real DEFAULT_RESOLUTION)) still_scenes.
Proof.
  destruct (still_scene 0 (-2) ltac:(lia)) as (o0 & L0 & S0 & E0). destruct (still_scene 1 (-1) ltac:(lia)) as (o1 & L1 & S1 & E1). unfold still_scenes. rewrite E0, E1.
  apply Forall_cons; [apply around_clear; auto|]. apply Forall_cons; [apply around_clear; auto|]. apply Forall_nil.
Qed.
Lemma still_says : Forall2 (scene_says 60 (real DEFAULT_RESOLUTION) [10; 10; 10]%Z) still_scenes [Some true; Some true] /\
  Forall2 (scene_says 60 (real DEFAULT_RESOLUTION) [5; 5; 5]%Z) still_scenes [Some false; Some false] /\
  Forall2 (scene_says 60 (real DEFAULT_RESOLUTION) [0; 20; 0]%Z) still_scenes [None; None].
Proof.
  destruct (still_scene 0 (-2) ltac:(lia)) as (o0 & L0 & S0 & E0). destruct (still_scene 1 (-1) ltac:(lia)) as (o1 & L1 & S1 & E1). unfold still_scenes. rewrite E0, E1.
  destruct (around_says o0 L0 S0 (-2) ltac:(auto)) as (A0 & B0 & C0). destruct (around_says o1 L1 S1 (-1) ltac:(auto)) as (A1 & B1 & C1).
  split; [|split]; (apply Forall2_cons; [assumption|]; apply Forall2_cons; [assumption|apply Forall2_nil]).
Qed.
Lemma still_lowest : lowest_first (real DEFAULT_RESOLUTION) still_scenes.
Proof.
  intros k sc0 sc q i H0 H Iq L. destruct (still_scene 0 (-2) ltac:(lia)) as (o0 & L0 & S0 & E0). destruct (still_scene 1 (-1) ltac:(lia)) as (o1 & L1 & S1 & E1).
  unfold still_scenes in *. rewrite E0, E1 in *. cbn [nth_error] in H0, H. injection H0 as <-. destruct k as [|k]; cbn [nth_error] in H; [|destruct k; discriminate H]. injection H as <-.
  unfold around in *. cbn [snd] in *. specialize (S0 i L). specialize (S1 i L). apply Rabs_le_inv in S0, S1. rewrite res_value.
  right. eexists. split; [left; reflexivity|]. rewrite (nth_around _ o0 i L0 L). destruct Iq as [<- |[<- |[]]]; rewrite (nth_around _ o1 i L1 L); lra.
Qed.
Lemma still_measured : measured ex_sys still_vs still_ms.
Proof.
  assert (K : forall k l, (l = -2 \/ l = -1)%Z -> angle (oxt_roll still_oxt) /\ angle (oxt_pitch still_oxt) /\ angle (oxt_yaw still_oxt) /\ Forall (sized 200) (coords (position ex_sys still_vs k still_oxt)) /\
    forall p, In p (pc_points (still_cloud l)) -> Forall finite p /\ dot3 (triple p) (triple p) <= 100 * 100).
  { intros k l Hl. assert (A : angle (f32_of_Z 0)) by (apply (small_f32 8); [lia|cbn; lra]). split; [exact A|]. split; [exact A|]. split; [exact A|].
    destruct (still_position k) as (x & y & z & E & S). rewrite E. split; [cbn [coords]; eapply Forall_impl; [|exact S]; intros v [F B]; split; [exact F|lra]|].
    intros p Ip. rewrite still_points in Ip. destruct (real_Z l ltac:(lia)) as [F1 V1]. destruct real_top as [F2 V2].
    destruct Ip as [<- |[<- |[]]]; (split; [repeat (apply Forall_cons; [assumption|]); apply Forall_nil|]); unfold triple, dot3; cbn [nth]; rewrite ?V1, ?V2; [destruct Hl as [-> | ->]; lra|lra]. }
  intros [|[|k]] v m Hv Hm; cbn [nth_error still_vs still_ms] in *; [| |destruct k; discriminate Hv]; injection Hv as <-; injection Hm as <-; apply K; auto.
Qed.
Lemma still_runs : exists rec o st th ev, viz_main ex_sys still_lookup [name10; name02] = Ret (Some rec) /\ om_default 3 coarse_ln = Ret o /\
  execution rec o st th ev /\ fair rec st th.
Proof.
  assert (O : exists rec, viz_main ex_sys still_lookup [name10; name02] = Ret (Some rec)).
  { apply main_opens. split; [apply ex_args|]. exists name02. split; [reflexivity|]. exists still_vs, still_ms. exact still_drive. }
  destruct O as (rec & E).
  assert (Q : match om_default 3 coarse_ln with Ret _ => true | _ => false end = true) by (vm_compute; reflexivity).
  destruct (om_default 3 coarse_ln) as [o| |] eqn:EO; try discriminate Q. exists rec, o.
  destruct (default_start coarse_ln o EO) as (m & Em & En). destruct (default_detects coarse_ln coarse_ln_special coarse_ln_monotone coarse_ln_positive) as (m' & Em' & _ & _ & _ & HM). rewrite Em in Em'. injection Em' as <-.
  assert (RO : recording_ok 3 DEFAULT_RESOLUTION DEFAULT_TILE_SIZE rec).
  { apply (drive_recording ex_sys still_lookup [name10; name02] name02 rec still_vs still_ms still_scenes E eq_refl still_drive); [discriminate|exact ex_trig|exact still_measured|exact still_scenes_of|exact still_clear]. }
  destruct (fair_exists rec 3 _ _ m o RO HM En) as (st & th & ev & X & F). exists st, th, ev. auto.
Qed.
