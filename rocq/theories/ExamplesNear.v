(** A scan turned by a small angle, its points rounded. *)
From Coq Require Import ZArith List Bool Reals Lra Lia.
From Flocq Require Import Core BinarySingleNaN.
From Verif Require Import Base F32 FloatFacts Arith Geom NdArray GridMap RayCaster NoiseModel Spec SpecMap SpecNoise SpecBack SpecMeet SpecNear NoiseProofs Examples ExamplesMap ExamplesNoise ExamplesViz ExamplesRay ExamplesShift ExamplesSame ExamplesMeet.
Open Scope R_scope.

(** Turned about the second axis by 2^-25. *)
Definition tn : f32 := f32_lit 1 33554432.
Definition tn1 : list f32 := [f1; f0; f32_lit (-1) 33554432; f0].
Definition tn2 : list f32 := [f0; f1; f0; f0].
Definition tn3 : list f32 := [tn; f0; f1; f0].
Definition tn4 : list f32 := [f0; f0; f0; f1].
(** (2, 0, 1) and (4, 0, -2^-23). *)
Definition tn_raw : matrix := mkMatrix 3 2 [f32_lit 2 1; f0; f1; f32_lit 4 1; f0; f32_lit (-1) 8388608].
Definition tn_p : point := [f32_lit 2 1; f0; f1].
Definition tn_q : point := [f32_lit 4 1; f0; f0].
Definition tn_cloud : matrix := pc_transform [tn1; tn2; tn3; tn4] tn_raw.
Definition tn_P : list R := [2 - / 33554432; 0; 1 + / 16777216].
Definition tn_Q : list R := [4 + / 281474976710656; 0; 0].

Lemma fine : forall x n, steps (-25) x = Some n -> finite x /\ real x = IZR n / 33554432.
Proof. intros x n H. destruct (steps_ok (-25) x n H) as [F E]. split; [exact F|]. rewrite E. change (bpow radix2 (-25)) with (/ 33554432). reflexivity. Qed.
Lemma tn_numbers : (finite f0 /\ real f0 = 0) /\ (finite f1 /\ real f1 = 1) /\ (finite (f32_lit 2 1) /\ real (f32_lit 2 1) = 2) /\ (finite (f32_lit 4 1) /\ real (f32_lit 4 1) = 4) /\
  (finite tn /\ real tn = / 33554432) /\ (finite (f32_lit (-1) 33554432) /\ real (f32_lit (-1) 33554432) = - / 33554432) /\ (finite (f32_lit (-1) 8388608) /\ real (f32_lit (-1) 8388608) = - / 8388608).
Proof.
  assert (K : forall x n v, steps (-25) x = Some n -> IZR n / 33554432 = v -> finite x /\ real x = v) by (intros x n v H <-; exact (fine x n H)).
  split; [split; reflexivity|]. split; [apply (K _ 33554432%Z); [vm_compute; reflexivity|lra]|]. split; [apply (K _ 67108864%Z); [vm_compute; reflexivity|lra]|].
  split; [apply (K _ 134217728%Z); [vm_compute; reflexivity|lra]|]. split; [apply (K _ 1%Z); [vm_compute; reflexivity|lra]|]. split; [apply (K _ (-1)%Z); [vm_compute; reflexivity|lra]|apply (K _ (-4)%Z); [vm_compute; reflexivity|lra]].
Qed.
Lemma tn_points : pc_points tn_cloud = [tn_p; tn_q] /\ pc_points tn_raw = [[f32_lit 2 1; f0; f1]; [f32_lit 4 1; f0; f32_lit (-1) 8388608]].
Proof.
  split; [|reflexivity]. remember (pc_points tn_cloud) as l eqn:E. pose (P := fun l : list point => match l with [a; b] => same_points a tn_p && same_points b tn_q | _ => false end).
  assert (H : P l = true) by (rewrite E; vm_compute; reflexivity). clear E. destruct l as [|a [|b [|]]]; try discriminate H. unfold P in H. apply andb_prop in H. destruct H as [A B]. apply same_points_true in A, B. now rewrite A, B.
Qed.
Lemma tn_exact : map (fun p => [affine tn1 p; affine tn2 p; affine tn3 p]) (pc_points tn_raw) = [tn_P; tn_Q].
Proof.
  rewrite (proj2 tn_points). destruct tn_numbers as ((_ & A) & (_ & B) & (_ & C) & (_ & D) & (_ & E) & (_ & F) & (_ & G)).
  unfold affine, tn1, tn2, tn3, tn_P, tn_Q. cbn [map app map2 fold_right]. rewrite A, B, C, D, E, F, G.
  repeat apply (f_equal2 (@cons _)); try reflexivity; lra.
Qed.
Lemma tn_sizes : forall p, In p (pc_points tn_raw) -> Forall (fun row => affine_size row p <= 16384 * real f1) [tn1; tn2; tn3].
Proof.
  rewrite (proj2 tn_points). destruct tn_numbers as ((_ & A) & (_ & B) & (_ & C) & (_ & D) & (_ & E) & (_ & F) & (_ & G)).
  assert (K : forall x, -5 <= x <= 5 -> Rabs x <= 5) by (intros; apply Rabs_le; lra).
  intros p [<-|[<-|[]]]; repeat apply Forall_cons; try apply Forall_nil; unfold affine_size, tn1, tn2, tn3; cbn [map app map2 fold_right]; rewrite A, B, ?C, ?D, ?E, ?F, ?G;
  match goal with |- Rabs ?a + (Rabs ?b + (Rabs ?c + (Rabs ?d + 0))) <= _ => pose proof (K a ltac:(lra)); pose proof (K b ltac:(lra)); pose proof (K c ltac:(lra)); pose proof (K d ltac:(lra)) end; lra.
Qed.
Lemma tn_moderate : matrix_ok tn_raw /\ nrows tn_raw = 3%nat /\ Forall moderate (mdata tn_raw) /\ Forall (fun row => length row = 4%nat /\ Forall moderate row) [tn1; tn2; tn3].
Proof.
  destruct tn_numbers as (A & B & C & D & E & F & G).
  assert (K : forall x v, finite x /\ real x = v -> -5 <= v <= 5 -> moderate x).
  { intros x v [Fx Ex] V. split; [exact Fx|]. rewrite Ex. apply Rle_trans with 5; [apply Rabs_le; lra|]. change 5 with (IZR 5). change (bpow radix2 40) with (IZR (2 ^ 40)). apply IZR_le. lia. }
  pose proof (K _ _ A ltac:(lra)) as MA. pose proof (K _ _ B ltac:(lra)) as MB. pose proof (K _ _ C ltac:(lra)) as MC. pose proof (K _ _ D ltac:(lra)) as MD. pose proof (K _ _ E ltac:(lra)) as ME. pose proof (K _ _ F ltac:(lra)) as MF. pose proof (K _ _ G ltac:(lra)) as MG.
  split; [reflexivity|]. split; [reflexivity|]. split; [repeat apply Forall_cons; try apply Forall_nil; assumption|].
  repeat apply Forall_cons; try apply Forall_nil; (split; [reflexivity|]); repeat apply Forall_cons; try apply Forall_nil; assumption.
Qed.
Lemma tn_values : Forall2 (fun x v => finite x /\ real x = v) sm_b [0; 0; 0] /\ Forall2 (fun x v => finite x /\ real x = v) tn_p [2; 0; 1] /\ Forall2 (fun x v => finite x /\ real x = v) tn_q [4; 0; 0].
Proof. destruct tn_numbers as (A & B & C & D & _). split; [|split]; repeat apply Forall2_cons; try apply Forall2_nil; assumption. Qed.
Lemma tn_short : ray_short f1 sm_b tn_p sm_b /\ ray_short f1 sm_b tn_q sm_b.
Proof.
  destruct tn_values as (O & P & Q). destruct tn_numbers as ((_ & A) & (F1 & R1) & (_ & C) & (_ & D) & _).
  assert (W : forall n, (5 <= n)%Z -> Forall (within_cells n f1) sm_b /\ Forall (within_cells n f1) tn_p /\ Forall (within_cells n f1) tn_q).
  { intros n N. split; [|split]; [apply (values_within _ _ n N O)|apply (values_within _ _ n N P)|apply (values_within _ _ n N Q)]; repeat apply Forall_cons; try apply Forall_nil; apply Rabs_le; lra. }
  destruct (W (2 ^ 20)%Z ltac:(lia)) as (A1 & A2 & A3). destruct (W (2 ^ 15)%Z ltac:(lia)) as (B1 & B2 & B3).
  assert (U : Rabs (0 - 0) <= 1023 * 1) by (rewrite Rminus_0_r, Rabs_R0; lra).
  split; (split; [apply range_by; try assumption; [lra|]|split; [assumption|split; [assumption|split; [assumption|]]]]); unfold sm_b, tn_p, tn_q;
    repeat apply Forall2_cons; try apply Forall2_nil; rewrite ?A, ?R1, ?C, ?D; try exact U; try (left; reflexivity); try (right; rewrite Rabs_left; lra); rewrite Rabs_left; lra.
Qed.
Lemma tn_off : off_by_cells (/ 64) 1 [0; 0; 0] [0; 0; 0] /\ off_by_cells (/ 64) 1 [2; 0; 1] tn_P /\ off_by_cells (/ 64) 1 [4; 0; 0] tn_Q.
Proof. split; [|split]; repeat apply Forall2_cons; try apply Forall2_nil; apply Rabs_le; lra. Qed.
Lemma zero_borders : off_borders (/ 8) [0; 0; 0] 1 [0; 0; 0].
Proof. intros i k Hi; rewrite Rmult_1_r; destruct i as [|[|[|i]]]; [..|cbn in Hi; lia]; cbn [nth]; match goal with |- _ <= Rabs ?x => replace x with (- / 2 - IZR k) by lra end; apply (off_by _ _ (-1)); lra. Qed.
Lemma tn_clear_P : clear_segment (11 / 4) [0; 0; 0] 1 [0; 0; 0] tn_P.
Proof.
  split; [exact zero_borders|]. split; [|split].
  - intros i k Hi; rewrite Rmult_1_r; destruct i as [|[|[|i]]]; [..|cbn in Hi; lia]; unfold tn_P; cbn [nth].
    + match goal with |- _ <= Rabs ?x => replace x with (2 - / 33554432 - / 2 - IZR k) by lra end. apply (off_by _ _ 1); lra.
    + match goal with |- _ <= Rabs ?x => replace x with (- / 2 - IZR k) by lra end. apply (off_by _ _ (-1)); lra.
    + match goal with |- _ <= Rabs ?x => replace x with (1 + / 16777216 - / 2 - IZR k) by lra end. apply (off_by _ _ 0); lra.
  - assert (XZ : forall u k l, 0 <= u <= 1 -> Rabs (0 + u * (2 - / 33554432 - 0) - (0 + (IZR k + / 2) * 1)) <= / 8 * 1 -> Rabs (0 + u * (1 + / 16777216 - 0) - (0 + (IZR l + / 2) * 1)) <= / 8 * 1 -> False).
    { intros u k l U A B. apply Rabs_le_inv in A, B. assert (l = 0%Z) by (apply only_whole; cbn; lra). subst l. apply (no_whole k 0); cbn; lra. }
    intros u i j k l Hu Hi Hj N D1 D2. destruct i as [|[|[|i]]], j as [|[|[|j]]]; cbn [length] in *; try lia; unfold tn_P, seg in *; cbn [map2 nth] in *; intros A B; try lra;
    first [exact (XZ u k l Hu A B)|exact (XZ u l k Hu B A)].
  - intros x u L Hu G. destruct x as [|k [|l [|n [|]]]]; try discriminate L. clear L.
    pose proof (G 0%nat ltac:(cbn; lia)) as G0. pose proof (G 1%nat ltac:(cbn; lia)) as G1. pose proof (G 2%nat ltac:(cbn; lia)) as G2. clear G.
    unfold seg, tn_P in *. cbn [map2 nth] in *. apply Rabs_le_inv in G0, G1, G2.
    assert (K : k = 0%Z \/ k = 1%Z \/ k = 2%Z). { assert (A4 : (0 <= k)%Z) by (apply Z.lt_succ_r; apply lt_IZR; rewrite succ_IZR; lra). assert (A5 : (k < 3)%Z) by (apply lt_IZR; lra). lia. }
    assert (l = 0%Z) by (apply only_whole; cbn; lra). subst l.
    assert (Kn : n = 0%Z \/ n = 1%Z). { assert (A4 : (0 <= n)%Z) by (apply Z.lt_succ_r; apply lt_IZR; rewrite succ_IZR; lra). assert (A5 : (n < 2)%Z) by (apply lt_IZR; lra). lia. }
    unfold dist, cell_centre. cbn [map2 fold_right]. rewrite !Rmult_1_r. match goal with |- sqrt ?z + _ <= _ \/ _ => set (q := z) end.
    left. assert (Q : q <= 12 / 5 * (12 / 5)) by (unfold q; destruct K as [-> | [-> | ->]]; destruct Kn as [-> | ->]; lra).
    assert (S : sqrt q <= 12 / 5) by (rewrite <- (sqrt_square (12 / 5)) by lra; now apply sqrt_le_1_alt). lra.
Qed.
Lemma tn_clear_Q : clear_segment (11 / 4) [0; 0; 0] 1 [0; 0; 0] tn_Q.
Proof.
  split; [exact zero_borders|]. split; [|split].
  - intros i k Hi; rewrite Rmult_1_r; destruct i as [|[|[|i]]]; [..|cbn in Hi; lia]; unfold tn_Q; cbn [nth].
    + match goal with |- _ <= Rabs ?x => replace x with (4 + / 281474976710656 - / 2 - IZR k) by lra end. apply (off_by _ _ 3); lra.
    + match goal with |- _ <= Rabs ?x => replace x with (- / 2 - IZR k) by lra end. apply (off_by _ _ (-1)); lra.
    + match goal with |- _ <= Rabs ?x => replace x with (- / 2 - IZR k) by lra end. apply (off_by _ _ (-1)); lra.
  - intros u i j k l Hu Hi Hj N D1 D2. exfalso. destruct i as [|[|[|i]]], j as [|[|[|j]]]; cbn [length] in *; try lia; unfold tn_Q in *; cbn [nth] in *; lra.
  - intros x u L Hu G. destruct x as [|k [|l [|n [|]]]]; try discriminate L. clear L.
    pose proof (G 0%nat ltac:(cbn; lia)) as G0. pose proof (G 1%nat ltac:(cbn; lia)) as G1. pose proof (G 2%nat ltac:(cbn; lia)) as G2. clear G.
    unfold seg, tn_Q in *. cbn [map2 nth] in *. apply Rabs_le_inv in G0, G1, G2.
    assert (K : (0 <= k)%Z) by (apply Z.lt_succ_r; apply lt_IZR; rewrite succ_IZR; lra).
    assert (l = 0%Z) by (apply only_whole; cbn; lra). assert (n = 0%Z) by (apply only_whole; cbn; lra). subst l n.
    unfold dist, cell_centre. cbn [map2 fold_right]. rewrite !Rmult_1_r. match goal with |- sqrt ?z + _ <= _ \/ _ => set (q := z) end.
    destruct (Z_le_gt_dec k 2) as [A|A].
    + left. assert (Q : q <= 2 * 2). { assert (K2 : IZR k * IZR k <= 4) by (assert (Hk : k = 0%Z \/ k = 1%Z \/ k = 2%Z) by lia; destruct Hk as [-> | [-> | ->]]; lra). unfold q. lra. }
      assert (S : sqrt q <= 2) by (rewrite <- (sqrt_square 2) by lra; now apply sqrt_le_1_alt). lra.
    + right. assert (Q : 3 * 3 <= q). { assert (K3 : 3 <= IZR k) by (apply IZR_le; lia). assert (9 <= IZR k * IZR k) by nra. unfold q. lra. }
      assert (S : 3 <= sqrt q) by (rewrite <- (sqrt_square 3) by lra; now apply sqrt_le_1_alt). lra.
Qed.

Lemma tn_ray : ray_short f1 sm_b tn_p sm_b /\ off_by_cells (/ 64) (real f1) (map real sm_b) [0; 0; 0] /\ off_by_cells (/ 64) (real f1) (map real tn_p) tn_P /\ map real tn_p <> tn_P /\
  clear_segment (real sm_m) (map real sm_b) (real f1) [0; 0; 0] tn_P /\
  cast_ray F32A 20 sm_b tn_p sm_b f1 sm_m = Ret ([[0; 0; 0]; [1; 0; 0]; [1; 0; 1]], Some [2; 0; 1])%Z.
Proof.
  destruct tn_values as (O & P & _). destruct tn_numbers as (_ & (_ & R1) & _). destruct (quarter sm_m 11 ltac:(vm_compute; reflexivity)) as [_ V].
  split; [exact (proj1 tn_short)|]. rewrite (values_reals _ _ O), (values_reals _ _ P), R1, V. split; [exact (proj1 tn_off)|]. split; [exact (proj1 (proj2 tn_off))|].
  split; [intro H; apply (f_equal (fun l => nth 0 l 0)) in H; unfold tn_P in H; cbn [nth] in H; lra|]. split; [exact tn_clear_P|]. vm_compute. reflexivity.
Qed.

Lemma tn_request : request_ok 3 f1 (pc_bounds tn_cloud).
Proof.
  destruct tn_values as (_ & P & Q). apply cloud_request; [exact res_one|vm_compute; reflexivity|vm_compute; reflexivity|]. rewrite (proj1 tn_points).
  intros p [<-|[<-|[]]]; [apply (values_within _ _ (2 ^ 18) ltac:(lia) P)|apply (values_within _ _ (2 ^ 18) ltac:(lia) Q)]; repeat apply Forall_cons; try apply Forall_nil; apply Rabs_le; lra.
Qed.
Lemma tn_map : exists g g1 g' : grid_map f32, map_range 3 f1 2 /\ reachable 3 f1 2 g /\ request_ok 3 f1 (pc_bounds tn_cloud) /\ length sm_b = 3%nat /\
  gm_expand_bounds g (pc_bounds tn_cloud) f0 = Ret g1 /\
  fltb f0 (max_range sm_lidar) = true /\ finite (max_range sm_lidar) /\ real (max_range sm_lidar) <= 1048576 * real f1 /\
  (forall p, In p (pc_points tn_cloud) -> ray_short f1 sm_b p (bmin (gm_bounds g1))) /\
  (forall p, In p (pc_points tn_raw) -> clear_segment (real (max_range sm_lidar)) (map real (bmin (gm_bounds g1))) (real f1) (map real sm_b) [affine tn1 p; affine tn2 p; affine tn3 p]) /\
  integrate_point_cloud 3072 as_is as_is sm_lidar g sm_b tn_cloud = Ret g' /\
  (gm_get g' [2; 0; 1] = Ret (f32_lit 85 100) /\ gm_get g' [2; 0; 0] = Ret (f32_lit (-4) 10) /\ gm_get g' [3; 0; 0] = Ret f0)%Z.
Proof.
  destruct sm_scan as (A & Fm & C & _).
  pose (V := fun (g : grid_map f32) c (x : f32) => match gm_get g c with Ret v => if sf_dec (B2SF v) (B2SF x) then true else false | _ => false end).
  pose (P := fun g0 => match gm_expand_bounds g0 (pc_bounds tn_cloud) f0 with Ret g1 =>
    match integrate_point_cloud 3072 as_is as_is sm_lidar g0 sm_b tn_cloud with Ret g' =>
      same_points (bmin (gm_bounds g1)) sm_b && V g' [2; 0; 1]%Z (f32_lit 85 100) && V g' [2; 0; 0]%Z (f32_lit (-4) 10) && V g' [3; 0; 0]%Z f0
    | _ => false end | _ => false end).
  destruct (ret_ex (gm_new f1 (bounds_empty 3) 2 f0) P) as (g0 & E0 & P0); [unfold P, V; vm_compute; reflexivity|]. unfold P in P0. clear P.
  apply ret_ex in P0. destruct P0 as (g1 & E1 & P0). apply ret_ex in P0. destruct P0 as (g' & E' & P0).
  rewrite !andb_true_iff in P0. destruct P0 as (((BM & V1) & V2) & V3). apply same_points_true in BM.
  assert (HV : forall h c x, V h c x = true -> gm_get h c = Ret x).
  { unfold V. intros h c x H. destruct (gm_get h c) as [v| |]; try discriminate H. f_equal. destruct (sf_dec (B2SF v) (B2SF x)) as [Q|]; [|discriminate H]. now apply B2SF_inj. }
  destruct tn_values as (O & _). destruct tn_numbers as (_ & (_ & R1) & _). destruct (quarter sm_m 11 ltac:(vm_compute; reflexivity)) as [_ VM]. assert (VL : real (max_range sm_lidar) = 11 / 4) by exact VM.
  exists g0, g1, g'. split; [split; [now right|]; split; [exact res_one|lia]|]. split; [eapply reach_new; exact E0|]. split; [exact tn_request|]. split; [reflexivity|].
  split; [exact E1|]. split; [exact A|]. split; [exact Fm|]. split; [exact C|]. rewrite BM. split; [|split].
  - rewrite (proj1 tn_points). intros p [<-|[<-|[]]]; [exact (proj1 tn_short)|exact (proj2 tn_short)].
  - intros p Hp. assert (X : In [affine tn1 p; affine tn2 p; affine tn3 p] [tn_P; tn_Q]) by (rewrite <- tn_exact; exact (in_map (fun p => [affine tn1 p; affine tn2 p; affine tn3 p]) _ _ Hp)).
    rewrite (values_reals _ _ O), R1, VL. destruct X as [<-|[<-|[]]]; [exact tn_clear_P|exact tn_clear_Q].
  - split; [exact E'|]. split; [exact (HV _ _ _ V1)|]. split; [exact (HV _ _ _ V2)|exact (HV _ _ _ V3)].
Qed.
Lemma tn_near : exists g1 : grid_map f32, exists g, reachable 3 f1 2 g /\ gm_expand_bounds g (pc_bounds tn_cloud) f0 = Ret g1 /\
  off_by_cells (/ 64) (real f1) (map real sm_b) (map real sm_b) /\
  Forall2 (fun q p => length p = 3%nat /\ ray_short f1 sm_b p (bmin (gm_bounds g1)) /\ off_by_cells (/ 64) (real f1) (map real p) q /\
    clear_segment (real (max_range sm_lidar)) (map real (bmin (gm_bounds g1))) (real f1) (map real sm_b) q) [tn_P; tn_Q] (pc_points tn_cloud).
Proof.
  destruct tn_map as (g & g1 & g' & _ & Rg & _ & _ & E1 & _ & _ & _ & SH & CS & _). exists g1, g. split; [exact Rg|]. split; [exact E1|].
  destruct tn_values as (O & P & Q). destruct tn_numbers as (_ & (_ & R1) & _). rewrite (proj1 tn_points) in *.
  assert (CS' : forall q, In q [tn_P; tn_Q] -> clear_segment (real (max_range sm_lidar)) (map real (bmin (gm_bounds g1))) (real f1) (map real sm_b) q).
  { intros q Hq. rewrite <- tn_exact in Hq. apply in_map_iff in Hq. destruct Hq as (p & <- & Hp). exact (CS p Hp). }
  split; [rewrite (values_reals _ _ O), R1; exact (proj1 tn_off)|].
  repeat apply Forall2_cons; try apply Forall2_nil; (split; [reflexivity|]); (split; [apply SH; cbn [In]; auto|]); (split; [|apply CS'; cbn [In]; auto]); rewrite ?(values_reals _ _ P), ?(values_reals _ _ Q), R1; [exact (proj1 (proj2 tn_off))|exact (proj2 (proj2 tn_off))].
Qed.
