(** A drive given by its texts: two frames of two points each, the vehicle moves by a millimetre. *)
From Coq Require Import ZArith List Bool Reals Lia Lra Strings.Byte Strings.String.
From Flocq Require Import Core BinarySingleNaN.
From Verif Require Import Base F32 F64 Arith Geom NdArray GridMap NoiseModel Kitti Spec SpecMap SpecNoise SpecKitti FloatFacts RoundError NdProofs MathProofs KittiProofs OxtProofs DirProofs GpsProofs Examples ExamplesKitti Viz SpecViz MainProofs ProgramProofs LiveProofs Pose SpecPose SpecMain PoseProofs StartProofs ExamplesPose SceneProofs ScanProofs ExamplesScene Number SpecNumber NumberProofs NumberRoundProofs NumberReadProofs ExamplesNumber SpecText TextProofs.
Open Scope R_scope.
Import List.

Definition std_sys : system := mkSystem (parse_float 53 1024) (parse_float 24 128) nearest_cos ex_sin ex_cos Little.
Definition tx_line (n : name) : bytes := if name_leb n name02 then txt "49.25 8.4 115.5 0 0 0" else txt "49.25000001 8.4 115.50 0 -0 0.00 7".
Definition tx_folder : folder := mkFolder true true (mkDir (IoOk [IoOk name10; IoOk name02]) (fun n => IoOk (tx_line n))) still_velodyne.
Definition tx_lookup (path : bytes) : folder := tx_folder.
Definition tx_0 : said := mkSaid (197 / 4) (42 / 5) (231 / 2) 0 0 0.
Definition tx_1 : said := mkSaid (4925000001 / 100000000) (42 / 5) (231 / 2) 0 0 0.
Definition tx_xs : list said := [tx_0; tx_1].

Lemma tx_std : std_parsers std_sys.
Proof. split; reflexivity. Qed.
Lemma tx_drive : drive_text std_sys tx_folder tx_xs still_ms.
Proof.
  split; [reflexivity|]. split; [reflexivity|]. split; [reflexivity|]. split.
  - exists [name02; name10]. split; [apply ex_order|]. constructor; [|constructor; [|constructor]].
    + exists (tx_line name02), (txt "49.25"), (txt "8.4"), (txt "115.5"), (txt "0"), (txt "0"), (txt "0"), []. split; [reflexivity|]. split; [apply utf8_text; vm_compute; reflexivity|].
      split; [apply fields_unique; vm_compute; reflexivity|]. unfold tx_0. cbn [lat_said lon_said alt_said roll_said pitch_said yaw_said]. repeat split; field_by.
    + exists (tx_line name10), (txt "49.25000001"), (txt "8.4"), (txt "115.50"), (txt "0"), (txt "-0"), (txt "0.00"), [txt "7"]. split; [reflexivity|]. split; [apply utf8_text; vm_compute; reflexivity|].
      split; [apply fields_unique; vm_compute; reflexivity|]. unfold tx_1. cbn [lat_said lon_said alt_said roll_said pitch_said yaw_said]. repeat split; field_by.
  - destruct still_drive as (_ & _ & _ & _ & names & O & H). exists names. split; [exact O|]. exact H.
Qed.
Lemma tx_metres : metres tx_0 tx_0 = (0, 0, 0) /\ metres tx_0 tx_1 = (0, 5001 / 4500000, 0).
Proof. split; unfold metres, tx_0, tx_1; cbn [lat_said lon_said alt_said]; (apply f_equal2; [apply f_equal2|]); unfold Rdiv; lra. Qed.
Lemma tx_reasonable : reasonable tx_xs still_ms.
Proof.
  destruct tx_metres as [M0 M1]. split.
  - intros x0 x H0 Ix. cbn [nth_error tx_xs] in H0. injection H0 as <-. destruct Ix as [<- |[<- |[]]]; (split; [|split]).
    1,4: unfold tx_0, tx_1; cbn [lat_said lon_said alt_said]; rewrite !Rabs_pos_eq by lra; lra.
    1,3: unfold tx_0, tx_1; cbn [roll_said pitch_said yaw_said]; rewrite Rabs_R0; lra.
    + rewrite M0, Rabs_R0. lra.
    + rewrite M1, Rabs_R0, Rabs_pos_eq; lra.
  - intros m p Im Ip. destruct (still_measured 0%nat still_oxt (still_cloud (-2)) eq_refl eq_refl) as (_ & _ & _ & _ & K0). destruct (still_measured 1%nat still_oxt (still_cloud (-1)) eq_refl eq_refl) as (_ & _ & _ & _ & K1).
    destruct Im as [<- |[<- |[]]]; [now apply K0|now apply K1].
Qed.

(** Scenes near these. *)
Definition around3 (l : R) (sc : scene) : Prop := exists o p q, sc = (o, [p; q]) /\ length o = 3%nat /\ length p = 3%nat /\ length q = 3%nat /\
  forall i, (i < 3)%nat -> Rabs (nth i o 0) <= / 400 /\ Rabs (nth i p 0 - l) <= / 400 /\ Rabs (nth i q 0 - 65 / 64) <= / 400.
Lemma two : forall (A B : Type) (P : A -> B -> Prop) a b l, Forall2 P [a; b] l -> exists x y, l = [x; y] /\ P a x /\ P b y.
Proof. intros A B P a b l H. inversion H as [|? x ? l' H1 H2]; subst. inversion H2 as [|? y ? l'' H3 H4]; subst. inversion H4. exists x, y. auto. Qed.
Lemma near_nth : forall e l m, near_list e l m -> forall i, (i < List.length l)%nat -> Rabs (nth i m 0 - nth i l 0) <= e.
Proof. intros e l m H. induction H as [|a b l m A _ IH]; intros i L; cbn [List.length] in L; [lia|]. destruct i as [|i]; cbn [nth]; [rewrite Rabs_minus_sym; exact A|apply IH; lia]. Qed.
Lemma near_len : forall e l m, near_list e l m -> List.length m = List.length l.
Proof. intros e l m H. symmetry. exact (Forall2_length _ _ _ H). Qed.
Lemma near_around : forall l a b c sc, (Z.abs l <= 2 ^ 24)%Z -> Rabs a <= / 800 -> Rabs b <= / 800 -> Rabs c <= / 800 ->
  near_scene (bpow radix2 (-10)) ([a; b; c], map (fun p => list3 (plus3 (turned 0 0 0 (triple p)) (a, b, c))) (pc_points (still_cloud l))) sc -> around3 (IZR l) sc.
Proof.
  intros l a b c [o pts] L A B C [N1 N2]. cbn [fst snd] in *. rewrite still_points in N2. cbn [map] in N2. rewrite !turned_zero in N2. unfold triple in N2. cbn [nth plus3 list3] in N2.
  rewrite (proj2 (real_Z l L)), (proj2 real_top) in N2. apply two in N2. destruct N2 as (p & q & -> & NP & NQ).
  exists o, p, q. split; [reflexivity|]. split; [exact (near_len _ _ _ N1)|]. split; [exact (near_len _ _ _ NP)|]. split; [exact (near_len _ _ _ NQ)|].
  intros i Hi. pose proof (near_nth _ _ _ N1 i Hi) as K1. pose proof (near_nth _ _ _ NP i Hi) as K2. pose proof (near_nth _ _ _ NQ i Hi) as K3.
  change (bpow radix2 (-10)) with (/ 1024) in *. apply Rabs_le_inv in A, B, C, K1, K2, K3.
  destruct i as [|[|[|i]]]; [..|exfalso; lia]; cbn [nth] in *; (split; [|split]); apply Rabs_le; lra.
Qed.
Lemma tx_around : forall scs, Forall2 (near_scene (bpow radix2 (-10))) (scenes_said tx_xs still_ms) scs -> exists s0 s1, scs = [s0; s1] /\ around3 (IZR (-2)) s0 /\ around3 (IZR (-1)) s1.
Proof.
  intros scs H. destruct tx_metres as [M0 M1]. unfold scenes_said, tx_xs, still_ms in H. cbn [map2] in H. apply two in H. destruct H as (s0 & s1 & -> & N0 & N1). unfold scene_said in N0, N1. rewrite M0 in N0. rewrite M1 in N1.
  unfold tx_0 in N0. unfold tx_1 in N1. cbn [roll_said pitch_said yaw_said list3] in N0, N1. exists s0, s1. split; [reflexivity|].
  split; [apply (near_around (-2) 0 0 0 s0)|apply (near_around (-1) 0 (5001 / 4500000) 0 s1)]; try assumption; try lia; rewrite ?Rabs_R0; try lra; rewrite Rabs_pos_eq; lra.
Qed.

Lemma clear3 : forall l sc, (l = -2 \/ l = -1)%Z -> around3 (IZR l) sc -> scene_clear (real DEFAULT_RESOLUTION) sc.
Proof.
  intros l sc Hl (o & p & q & -> & Lo & Lp & Lq & K) i L. cbv zeta. cbn [fst snd]. destruct (K i L) as (K1 & K2 & K3). apply Rabs_le_inv in K1, K2, K3.
  pose proof (off_border o Lo) as OB. set (r := real DEFAULT_RESOLUTION) in *. assert (RV : r = 13421773 / 134217728) by exact res_value.
  assert (B : -2 <= IZR l <= -1) by (destruct Hl as [-> | ->]; lra).
  split; [|split; [|split]].
  - right. exists p. split; [left; reflexivity|]. lra.
  - right. exists q. split; [right; left; reflexivity|]. lra.
  - right. left. exists q. split; [right; left; reflexivity|]. lra.
  - intros x [<- |[<- |[]]]; (split; [|split]).
    + left. lra.
    + rewrite Rabs_left; lra.
    + intro k. apply (OB _ (10 * l)%Z). rewrite mult_IZR, RV. destruct Hl as [-> | ->]; lra.
    + right. right. exists 10%Z. rewrite RV. lra.
    + rewrite Rabs_pos_eq; lra.
    + intro k. apply (OB _ 10%Z). rewrite RV. lra.
Qed.
Lemma dist3 : forall a b, List.length a = 3%nat -> List.length b = 3%nat -> (forall i, (i < 3)%nat -> Rabs (nth i a 0 - nth i b 0) <= 2) -> dist a b <= 4.
Proof.
  intros a b La Lb H. destruct a as [|a1 [|a2 [|a3 [|]]]]; try discriminate La. destruct b as [|b1 [|b2 [|b3 [|]]]]; try discriminate Lb.
  pose proof (H 0%nat ltac:(lia)) as H0. pose proof (H 1%nat ltac:(lia)) as H1. pose proof (H 2%nat ltac:(lia)) as H2. cbn [nth] in *. apply Rabs_le_inv in H0, H1, H2.
  unfold dist. cbn [map map2 fold_right]. apply Rle_trans with (sqrt (4 * 4)); [apply sqrt_le_1_alt; nra|rewrite sqrt_square; lra].
Qed.
Lemma says3 : forall l sc, (l = -2 \/ l = -1)%Z -> around3 (IZR l) sc ->
  scene_says 60 (real DEFAULT_RESOLUTION) [10; 10; 10]%Z sc (Some true) /\ scene_says 60 (real DEFAULT_RESOLUTION) [5; 5; 5]%Z sc (Some false) /\ scene_says 60 (real DEFAULT_RESOLUTION) [0; 20; 0]%Z sc None.
Proof.
  intros l sc Hl (o & p & q & -> & Lo & Lp & Lq & K). set (r := real DEFAULT_RESOLUTION) in *. assert (RV : r = 13421773 / 134217728) by exact res_value. assert (B : -2 <= IZR l <= -1) by (destruct Hl as [-> | ->]; lra).
  assert (AD : dist q o <= 4) by (apply dist3; [assumption|assumption|]; intros i L; destruct (K i L) as (K1 & _ & K3); apply Rabs_le_inv in K1, K3; apply Rabs_le; lra).
  assert (W : forall k i, (i < 3)%nat -> nth i [k; k; k] 0%Z = k) by (intros k [|[|[|i]]] H; [reflexivity..|lia]).
  unfold scene_says. cbn [fst snd]. split; [|split].
  - exists q. split; [right; left; reflexivity|]. split; [|lra]. intros i L. rewrite (W _ i L). destruct (K i L) as (_ & _ & K3). apply Rabs_le_inv in K3. apply Rabs_le. rewrite RV. lra.
  - split.
    + exists q, (/ 2). split; [right; left; reflexivity|]. split; [lra|]. split; [|lra]. intros i L. rewrite seg_nth, (W _ i L) by assumption. destruct (K i L) as (K1 & _ & K3). apply Rabs_le_inv in K1, K3. apply Rabs_le. rewrite RV. lra.
    + intros x Ix H. specialize (H 0%nat ltac:(lia)). destruct (K 0%nat ltac:(lia)) as (_ & K2 & K3). apply Rabs_le_inv in K2, K3. change (nth 0 [5; 5; 5]%Z 0%Z) with 5%Z in H. destruct Ix as [<- |[<- |[]]]; apply Rabs_le_inv in H; rewrite RV in H; lra.
  - left. intros x u Ip U H. specialize (H 1%nat ltac:(lia)). destruct (K 1%nat ltac:(lia)) as (K1 & K2 & K3). apply Rabs_le_inv in K1, K2, K3. change (nth 1 [0; 20; 0]%Z 0%Z) with 20%Z in H.
    destruct Ip as [<- |[<- |[]]]; rewrite seg_nth in H by (try assumption; lia); apply Rabs_le_inv in H; rewrite RV in H; nra.
Qed.
Lemma tx_conditions : forall scs, Forall2 (near_scene (bpow radix2 (-10))) (scenes_said tx_xs still_ms) scs ->
  Forall (scene_clear (real DEFAULT_RESOLUTION)) scs /\ lowest_first (real DEFAULT_RESOLUTION) scs /\
  Forall2 (scene_says 60 (real DEFAULT_RESOLUTION) [10; 10; 10]%Z) scs [Some true; Some true] /\
  Forall2 (scene_says 60 (real DEFAULT_RESOLUTION) [5; 5; 5]%Z) scs [Some false; Some false] /\
  Forall2 (scene_says 60 (real DEFAULT_RESOLUTION) [0; 20; 0]%Z) scs [None; None].
Proof.
  intros scs H. destruct (tx_around scs H) as (s0 & s1 & -> & A0 & A1).
  split; [apply Forall_cons; [now apply (clear3 (-2)); auto|]; apply Forall_cons; [now apply (clear3 (-1)); auto|apply Forall_nil]|]. split.
  - intros k sc0 sc x i H0 H1 Ix L. cbn [nth_error] in H0. injection H0 as <-. destruct k as [|k]; cbn [nth_error] in H1; [|destruct k; discriminate H1]. injection H1 as <-.
    destruct A0 as (o & p & q & -> & _ & _ & _ & K). destruct A1 as (o' & p' & q' & -> & _ & _ & _ & K'). cbn [snd] in *. destruct (K i L) as (_ & K2 & _). destruct (K' i L) as (_ & K2' & K3'). apply Rabs_le_inv in K2, K2', K3'.
    right. exists p. split; [left; reflexivity|]. rewrite res_value. destruct Ix as [<- |[<- |[]]]; lra.
  - destruct (says3 (-2) s0 ltac:(auto) A0) as (B0 & C0 & D0). destruct (says3 (-1) s1 ltac:(auto) A1) as (B1 & C1 & D1).
    split; [|split]; (apply Forall2_cons; [assumption|]; apply Forall2_cons; [assumption|apply Forall2_nil]).
Qed.
Lemma tx_runs : exists rec o st th ev, viz_main std_sys tx_lookup [name10; name02] = Ret (Some rec) /\ om_default 3 coarse_ln = Ret o /\
  execution rec o st th ev /\ fair rec st th.
Proof.
  assert (O : exists rec, viz_main std_sys tx_lookup [name10; name02] = Ret (Some rec)).
  { exact (text_opens std_sys tx_lookup [name10; name02] name02 tx_xs still_ms tx_std (proj1 ex_args) eq_refl tx_drive nearest_cos_accurate tx_reasonable). }
  destruct O as (rec & E).
  assert (Q : match om_default 3 coarse_ln with Ret _ => true | _ => false end = true) by (vm_compute; reflexivity).
  destruct (om_default 3 coarse_ln) as [o| |] eqn:EO; try discriminate Q. exists rec, o.
  destruct (default_start coarse_ln o EO) as (m & Em & En). destruct (default_detects coarse_ln coarse_ln_special coarse_ln_monotone coarse_ln_positive) as (m' & Em' & _ & _ & _ & HM). rewrite Em in Em'. injection Em' as <-.
  destruct (text_near std_sys tx_folder tx_xs still_ms tx_std tx_drive nearest_cos_accurate tx_reasonable) as (vs & scs & D & LV & ME & SO & N).
  assert (RO : recording_ok 3 DEFAULT_RESOLUTION DEFAULT_TILE_SIZE rec).
  { apply (drive_recording std_sys tx_lookup [name10; name02] name02 rec vs still_ms scs E eq_refl D); [intros ->; discriminate LV|exact ex_trig|exact ME|exact SO|exact (proj1 (tx_conditions scs N))]. }
  destruct (fair_exists rec 3 _ _ m o RO HM En) as (st & th & ev & X & F). exists st, th, ev. auto.
Qed.
