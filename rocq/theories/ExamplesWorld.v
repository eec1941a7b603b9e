(** Two scans, recorded twice. *)
From Coq Require Import ZArith List Bool Reals Lra Lia.
From Flocq Require Import Core BinarySingleNaN.
From Verif Require Import Base F32 FloatFacts Arith Geom NdArray GridMap RayCaster NoiseModel Spec SpecMap SpecNoise SpecBack SpecMeet SpecNear SpecWorld NdProofs MapProofs NoiseProofs WorldMapProofs Examples ExamplesMap ExamplesNoise ExamplesViz ExamplesRay ExamplesShift ExamplesSame ExamplesMeet ExamplesNear.
Open Scope R_scope.

Definition wd_N : list R := [-2; 0; 1].
Definition wd_1 : exact_scan := ([0; 0; 0], [tn_P; tn_Q]).
Definition wd_2 : exact_scan := ([0; 0; 0], [wd_N]).
(** The first recording. *)
Definition wd_n : point := [f32_lit (-2) 1; f0; f1].
Definition wd_a2 : matrix := mkMatrix 3 1 wd_n.
(** The second one: the points are off by a 256th of a cell. *)
Definition wd_p' : point := [f32_lit 513 256; f0; f1].
Definition wd_q' : point := [f32_lit 4 1; f0; f32_lit (-1) 256].
Definition wd_n' : point := [f32_lit (-2) 1; f32_lit 1 256; f32_lit 255 256].
Definition wd_b1 : matrix := mkMatrix 3 2 (wd_p' ++ wd_q').
Definition wd_b2 : matrix := mkMatrix 3 1 wd_n'.

Lemma wd_clear_N : clear_segment (11 / 4) [0; 0; 0] 1 [0; 0; 0] wd_N.
Proof.
  split; [exact zero_borders|]. split; [|split].
  - intros i k Hi; rewrite Rmult_1_r; destruct i as [|[|[|i]]]; [..|cbn in Hi; lia]; unfold wd_N; cbn [nth].
    + match goal with |- _ <= Rabs ?x => replace x with (-2 - / 2 - IZR k) by lra end. apply (off_by _ _ (-3)); lra.
    + match goal with |- _ <= Rabs ?x => replace x with (- / 2 - IZR k) by lra end. apply (off_by _ _ (-1)); lra.
    + match goal with |- _ <= Rabs ?x => replace x with (1 - / 2 - IZR k) by lra end. apply (off_by _ _ 0); lra.
  - assert (XZ : forall u k l, 0 <= u <= 1 -> Rabs (0 + u * (-2 - 0) - (0 + (IZR k + / 2) * 1)) <= / 8 * 1 -> Rabs (0 + u * (1 - 0) - (0 + (IZR l + / 2) * 1)) <= / 8 * 1 -> False).
    { intros u k l U A B. apply Rabs_le_inv in A, B. assert (l = 0%Z) by (apply only_whole; cbn; lra). subst l. apply (no_whole k (-2)); cbn; lra. }
    intros u i j k l Hu Hi Hj N D1 D2. destruct i as [|[|[|i]]], j as [|[|[|j]]]; cbn [length] in *; try lia; unfold wd_N, seg in *; cbn [map2 nth] in *; intros A B; try lra;
    first [exact (XZ u k l Hu A B)|exact (XZ u l k Hu B A)].
  - intros x u L Hu G. destruct x as [|k [|l [|n [|]]]]; try discriminate L. clear L.
    pose proof (G 0%nat ltac:(cbn; lia)) as G0. pose proof (G 1%nat ltac:(cbn; lia)) as G1. pose proof (G 2%nat ltac:(cbn; lia)) as G2. clear G.
    unfold seg, wd_N in *. cbn [map2 nth] in *. apply Rabs_le_inv in G0, G1, G2.
    assert (K : k = 0%Z \/ k = (-1)%Z \/ k = (-2)%Z). { assert (A4 : (k < 1)%Z) by (apply lt_IZR; lra). assert (A5 : (-3 < k)%Z) by (apply lt_IZR; lra). lia. }
    assert (l = 0%Z) by (apply only_whole; cbn; lra). subst l.
    assert (Kn : n = 0%Z \/ n = 1%Z). { assert (A4 : (-1 < n)%Z) by (apply lt_IZR; lra). assert (A5 : (n < 2)%Z) by (apply lt_IZR; lra). lia. }
    unfold dist, cell_centre. cbn [map2 fold_right]. rewrite !Rmult_1_r. match goal with |- sqrt ?z + _ <= _ \/ _ => set (q := z) end.
    left. assert (Q : q <= 12 / 5 * (12 / 5)) by (unfold q; destruct K as [-> | [-> | ->]]; destruct Kn as [-> | ->]; lra).
    assert (S : sqrt q <= 12 / 5) by (rewrite <- (sqrt_square (12 / 5)) by lra; now apply sqrt_le_1_alt). lra.
Qed.

Definition whole (p : point) (l : list R) : Prop := Forall2 (fun x v => finite x /\ real x = v) p l.
Lemma wd_short : forall p l b lb, whole p l -> whole b lb -> Forall (fun v => Rabs v <= 5) l -> Forall (fun v => Rabs v <= 5) lb -> Forall (fun v => v = 0 \/ / 1024 <= Rabs v) l -> length l = 3%nat ->
  ray_short f1 sm_b p b.
Proof.
  intros p l b lb P B Pl Bl Z L. destruct tn_values as (O & _). destruct tn_numbers as ((_ & A) & (F1 & R1) & _).
  assert (Ol : Forall (fun v => Rabs v <= 5) [0; 0; 0]) by (repeat apply Forall_cons; try apply Forall_nil; rewrite Rabs_R0; lra).
  assert (D : Forall2 (fun x y => real x = real y \/ / 1024 <= Rabs (real x - real y)) sm_b p /\ Forall2 (fun x y => Rabs (real x - real y) <= 1023 * real f1) sm_b p).
  { destruct l as [|x [|y [|z [|]]]]; try discriminate L. inversion P as [|? ? ? ? [_ E1] P1]; subst. inversion P1 as [|? ? ? ? [_ E2] P2]; subst. inversion P2 as [|? ? ? ? [_ E3] P3]; subst. inversion P3; subst.
    apply Forall_cons_iff in Pl, Z. destruct Pl as [X1 Pl], Z as [Y1 Z]. apply Forall_cons_iff in Pl, Z. destruct Pl as [X2 Pl], Z as [Y2 Z]. apply Forall_cons_iff in Pl, Z. destruct Pl as [X3 _], Z as [Y3 _].
    unfold sm_b. rewrite R1. split; [|repeat apply Forall2_cons; try apply Forall2_nil; rewrite A, ?Rminus_0_l, ?Rabs_Ropp; lra]. repeat apply Forall2_cons; try apply Forall2_nil; rewrite A, ?Rminus_0_l, ?Rabs_Ropp; lra. }
  split; [apply range_by; [exact F1|lra|..|exact (proj1 D)]|split; [|split; [|split; [|exact (proj2 D)]]]].
  - apply (values_within _ _ (2 ^ 20) ltac:(lia) O Ol).
  - apply (values_within _ _ (2 ^ 20) ltac:(lia) P Pl).
  - apply (values_within _ _ (2 ^ 20) ltac:(lia) B Bl).
  - apply (values_within _ _ (2 ^ 15) ltac:(lia) O Ol).
  - apply (values_within _ _ (2 ^ 15) ltac:(lia) P Pl).
  - apply (values_within _ _ (2 ^ 15) ltac:(lia) B Bl).
Qed.

Lemma wd_records : forall g g1 cloud qs ls lb, gm_expand_bounds g (pc_bounds cloud) f0 = Ret g1 -> whole (bmin (gm_bounds g1)) lb -> Forall (fun v => Rabs v <= 5) lb ->
  matrix_ok cloud -> nrows cloud = 3%nat -> Forall2 whole (pc_points cloud) ls -> 
  Forall (fun l => length l = 3%nat /\ Forall (fun v => Rabs v <= 5) l /\ Forall (fun v => v = 0 \/ / 1024 <= Rabs v) l) ls ->
  Forall2 (fun q l => off_by_cells (/ 128) 1 l q /\ clear_segment (11 / 4) [0; 0; 0] 1 [0; 0; 0] q) qs ls ->
  records 3 (max_range sm_lidar) f1 g ([0; 0; 0], qs) sm_b cloud.
Proof.
  intros g g1 cloud qs ls lb E1 B Bl MO NR PL SM QL. destruct tn_values as (O & _). destruct tn_numbers as (_ & (_ & R1) & _).
  destruct (quarter sm_m 11 ltac:(vm_compute; reflexivity)) as [_ VM]. assert (VL : real (max_range sm_lidar) = 11 / 4) by exact VM.
  split; [reflexivity|]. split; [|split].
  - apply cloud_request; [exact res_one|exact MO|exact NR|]. intros p Hp. clear - PL SM Hp. induction PL as [|p0 l ps ls P _ IH]; [destruct Hp|].
    apply Forall_cons_iff in SM. destruct SM as [(_ & S & _) SM]. destruct Hp as [<-|Hp]; [exact (values_within _ _ (2 ^ 18) ltac:(lia) P S)|exact (IH SM Hp)].
  - cbn [fst]. rewrite (values_reals _ _ O), R1. repeat apply Forall2_cons; try apply Forall2_nil; apply Rabs_le; lra.
  - intros g2 E2. assert (g2 = g1) by congruence. subst g2. cbn [fst snd]. rewrite R1, VL. clear E1 E2 MO NR. revert qs QL.
    induction PL as [|p l ps ls P PL IH]; intros qs QL.
    + inversion QL. constructor.
    + inversion QL as [|q ? qs' ? [OB CS] QL']; subst. apply Forall_cons_iff in SM. destruct SM as [(L & S & N) SM]. constructor; [|exact (IH SM _ QL')].
      split; [exact (eq_trans (Forall2_length _ _ _ P) L)|]. split; [exact (wd_short p l _ lb P B S Bl N L)|]. split; [rewrite (values_reals _ _ P); exact OB|exact CS].
Qed.

Lemma wd_values : whole tn_p [2; 0; 1] /\ whole tn_q [4; 0; 0] /\ whole wd_n [-2; 0; 1] /\ whole wd_p' [2 + / 256; 0; 1] /\ whole wd_q' [4; 0; - / 256] /\ whole wd_n' [-2; / 256; 1 - / 256].
Proof.
  assert (K : forall x n v, steps (-25) x = Some n -> IZR n / 33554432 = v -> finite x /\ real x = v) by (intros x n v H <-; exact (fine x n H)).
  destruct tn_numbers as (A & B & C & D & _).
  assert (N2 : finite (f32_lit (-2) 1) /\ real (f32_lit (-2) 1) = -2) by (apply (K _ (-67108864)%Z); [vm_compute; reflexivity|lra]).
  assert (P2 : finite (f32_lit 513 256) /\ real (f32_lit 513 256) = 2 + / 256) by (apply (K _ 67239936%Z); [vm_compute; reflexivity|lra]).
  assert (Q3 : finite (f32_lit (-1) 256) /\ real (f32_lit (-1) 256) = - / 256) by (apply (K _ (-131072)%Z); [vm_compute; reflexivity|lra]).
  assert (Q4 : finite (f32_lit 1 256) /\ real (f32_lit 1 256) = / 256) by (apply (K _ 131072%Z); [vm_compute; reflexivity|lra]).
  assert (Q5 : finite (f32_lit 255 256) /\ real (f32_lit 255 256) = 1 - / 256) by (apply (K _ 33423360%Z); [vm_compute; reflexivity|lra]).
  unfold whole. repeat split; repeat apply Forall2_cons; try apply Forall2_nil; assumption.
Qed.
Lemma wd_points : pc_points wd_a2 = [wd_n] /\ pc_points wd_b1 = [wd_p'; wd_q'] /\ pc_points wd_b2 = [wd_n'].
Proof. split; [reflexivity|split; reflexivity]. Qed.

(** The lower corners of the maps. *)
Definition wd_corner (b : point) (l : list Z) : bool :=
  match b, l with [x; y; z], [i; j; k] => match steps 0 x, steps 0 y, steps 0 z with Some i', Some j', Some k' => Z.eqb i' i && Z.eqb j' j && Z.eqb k' k | _, _, _ => false end | _, _ => false end.
Lemma wd_corner_ok : forall b i j k, wd_corner b [i; j; k] = true -> whole b [IZR i; IZR j; IZR k].
Proof.
  intros b i j k H. unfold wd_corner in H. destruct b as [|x [|y [|z [|]]]]; try discriminate H.
  destruct (steps 0 x) as [i'|] eqn:X; [|discriminate H]. destruct (steps 0 y) as [j'|] eqn:Y; [|discriminate H]. destruct (steps 0 z) as [k'|] eqn:Z'; [|discriminate H].
  rewrite !andb_true_iff, !Z.eqb_eq in H. destruct H as ((-> & ->) & ->).
  assert (K : forall x n, steps 0 x = Some n -> finite x /\ real x = IZR n) by (intros x0 n0 S; destruct (steps_ok 0 x0 n0 S) as [F E]; split; [exact F|]; rewrite E; change (bpow radix2 0) with 1; ring).
  repeat apply Forall2_cons; try apply Forall2_nil; now apply K.
Qed.

Definition wd_same (g : grid_map f32) (c : cell) (x : f32) : bool := match gm_get g c with Ret v => if sf_dec (B2SF v) (B2SF x) then true else false | _ => false end.
Lemma wd_same_ok : forall g c x, wd_same g c x = true -> gm_get g c = Ret x.
Proof. unfold wd_same. intros h c x H. destruct (gm_get h c) as [v| |]; try discriminate H. f_equal. destruct (sf_dec (B2SF v) (B2SF x)) as [Q|]; [|discriminate H]. now apply B2SF_inj. Qed.

(** Two clouds integrated one after the other. *)
Lemma wd_recorded : forall t c1 c2 ls1 ls2 k1 k2 k3 l1 l2 l3 (U V : grid_map f32 -> bool),
  matrix_ok c1 /\ nrows c1 = 3%nat -> matrix_ok c2 /\ nrows c2 = 3%nat -> Forall2 whole (pc_points c1) ls1 -> Forall2 whole (pc_points c2) ls2 ->
  Forall (fun l => length l = 3%nat /\ Forall (fun v => Rabs v <= 5) l /\ Forall (fun v => v = 0 \/ / 1024 <= Rabs v) l) (ls1 ++ ls2) ->
  Forall2 (fun q l => off_by_cells (/ 128) 1 l q) [tn_P; tn_Q] ls1 -> Forall2 (fun q l => off_by_cells (/ 128) 1 l q) [wd_N] ls2 ->
  Forall (fun z => (-5 <= z <= 5)%Z) [k1; k2; k3; l1; l2; l3] ->
  match om_new 3 sm_lidar f1 t with Ret o0 => match gm_expand_bounds (om_grid o0) (pc_bounds c1) f0 with Ret g1 => match om_integrate 3072 as_is as_is o0 sm_b c1 with Ret o1 =>
    match gm_expand_bounds (om_grid o1) (pc_bounds c2) f0 with Ret g2 => match om_integrate 3072 as_is as_is o1 sm_b c2 with Ret o2 =>
      wd_corner (bmin (gm_bounds g1)) [k1; k2; k3] && wd_corner (bmin (gm_bounds g2)) [l1; l2; l3] && U g2 && V (om_grid o2)
    | _ => false end | _ => false end | _ => false end | _ => false end | _ => false end = true ->
  exists o1 g2 o2, recorded 3 f1 t sm_lidar o1 [wd_1] /\ records 3 (max_range sm_lidar) f1 (om_grid o1) wd_2 sm_b c2 /\ om_integrate 3072 as_is as_is o1 sm_b c2 = Ret o2 /\
    recorded 3 f1 t sm_lidar o2 [wd_1; wd_2] /\ V (om_grid o2) = true /\ gm_expand_bounds (om_grid o1) (pc_bounds c2) f0 = Ret g2 /\ U g2 = true.
Proof.
  intros t c1 c2 ls1 ls2 k1 k2 k3 l1 l2 l3 U V (MO1 & NR1) (MO2 & NR2) P1 P2 S O1 O2 KK E. apply Forall_app in S. destruct S as [S1 S2].
  apply ret_ex in E. destruct E as (o0 & E0 & E). apply ret_ex in E. destruct E as (g1 & G1 & E). apply ret_ex in E. destruct E as (o1 & E1 & E).
  apply ret_ex in E. destruct E as (g2 & G2 & E). apply ret_ex in E. destruct E as (o2 & E2 & E). rewrite !andb_true_iff in E. destruct E as (((W1 & W2) & EU) & E).
  apply wd_corner_ok in W1, W2.
  assert (B : forall i j k, In i [k1; k2; k3; l1; l2; l3] -> In j [k1; k2; k3; l1; l2; l3] -> In k [k1; k2; k3; l1; l2; l3] -> Forall (fun v => Rabs v <= 5) [IZR i; IZR j; IZR k]).
  { intros i j k I J K. rewrite Forall_forall in KK. pose proof (KK i I) as [A A']. pose proof (KK j J) as [B B']. pose proof (KK k K) as [C C'].
    repeat apply Forall_cons; try apply Forall_nil; apply Rabs_le; split; (apply IZR_le; lia) || (change (- (5)) with (IZR (-5)); apply IZR_le; lia). }
  assert (R1 : records 3 (max_range sm_lidar) f1 (om_grid o0) wd_1 sm_b c1).
  { apply (wd_records (om_grid o0) g1 c1 [tn_P; tn_Q] ls1 _ G1 W1); auto; [apply B; cbn [In]; auto|].
    inversion O1 as [|? lx ? ly A O]; subst. inversion O as [|? lz ? lw A' O']; subst. inversion O'; subst.
    repeat apply Forall2_cons; try apply Forall2_nil; (split; [assumption|]); [exact tn_clear_P|exact tn_clear_Q]. }
  assert (R2 : records 3 (max_range sm_lidar) f1 (om_grid o1) wd_2 sm_b c2).
  { apply (wd_records (om_grid o1) g2 c2 [wd_N] ls2 _ G2 W2); auto; [apply B; cbn [In]; auto 10|].
    inversion O2 as [|? l ? ? A O]; subst. inversion O; subst.
    repeat apply Forall2_cons; try apply Forall2_nil; (split; [assumption|]); exact wd_clear_N. }
  assert (X1 : recorded 3 f1 t sm_lidar o1 [wd_1]) by (apply (recorded_next _ _ _ _ o0 [] wd_1 3072 as_is as_is sm_b c1); [now apply recorded_new|exact as_is_order|exact as_is_order|exact R1|lia|exact E1]).
  exists o1, g2, o2. split; [exact X1|]. split; [exact R2|]. split; [exact E2|]. split; [|auto].
  apply (recorded_next _ _ _ _ o1 [wd_1] wd_2 3072 as_is as_is sm_b c2); [exact X1|exact as_is_order|exact as_is_order|exact R2|lia|exact E2].
Qed.

Definition sized (ls : list (list R)) : Prop := Forall (fun l => length l = 3%nat /\ Forall (fun v => Rabs v <= 5) l /\ Forall (fun v => v = 0 \/ / 1024 <= Rabs v) l) ls.
Lemma sized_by : forall x y z ls, (x = 0 \/ / 1024 <= x <= 5 \/ -5 <= x <= - / 1024) -> (y = 0 \/ / 1024 <= y <= 5 \/ -5 <= y <= - / 1024) -> (z = 0 \/ / 1024 <= z <= 5 \/ -5 <= z <= - / 1024) ->
  sized ls -> sized ([x; y; z] :: ls).
Proof.
  assert (K : forall v, (v = 0 \/ / 1024 <= v <= 5 \/ -5 <= v <= - / 1024) -> Rabs v <= 5 /\ (v = 0 \/ / 1024 <= Rabs v)).
  { intros v [-> |[H|H]]; [rewrite Rabs_R0; lra|rewrite Rabs_pos_eq by lra; lra|rewrite Rabs_left by lra; lra]. }
  intros x y z ls X Y Z S. apply Forall_cons; [|exact S]. apply K in X, Y, Z. split; [reflexivity|]. split; repeat apply Forall_cons; try apply Forall_nil; tauto.
Qed.
Lemma wd_sizes : sized [[2; 0; 1]; [4; 0; 0]; [-2; 0; 1]].
Proof. repeat apply sized_by; try lra. apply Forall_nil. Qed.
Lemma wd_sizes' : sized [[2 + / 256; 0; 1]; [4; 0; - / 256]; [-2; / 256; 1 - / 256]].
Proof. repeat apply sized_by; try lra. apply Forall_nil. Qed.

Lemma wd_first : exists o1 o2, recorded 3 f1 2 sm_lidar o1 [wd_1] /\ records 3 (max_range sm_lidar) f1 (om_grid o1) wd_2 sm_b wd_a2 /\ om_integrate 3072 as_is as_is o1 sm_b wd_a2 = Ret o2 /\
  recorded 3 f1 2 sm_lidar o2 [wd_1; wd_2] /\
  (gm_get (om_grid o2) [4; 0; 1] = Ret (f32_lit 85 100) /\ gm_get (om_grid o2) [0; 0; 1] = Ret (f32_lit 85 100) /\ gm_get (om_grid o2) [2; 0; 0] = Ret (f32_lit (-8) 10) /\ gm_get (om_grid o2) [4; 0; 0] = Ret (f32_lit (-4) 10))%Z.
Proof.
  destruct wd_values as (A & B & C & _).
  destruct (wd_recorded 2 tn_cloud wd_a2 [[2; 0; 1]; [4; 0; 0]] [[-2; 0; 1]] 0 0 0 (-2) 0 0 (fun _ => true) (fun g => wd_same g [4; 0; 1]%Z (f32_lit 85 100) && wd_same g [0; 0; 1]%Z (f32_lit 85 100) && wd_same g [2; 0; 0]%Z (f32_lit (-8) 10) && wd_same g [4; 0; 0]%Z (f32_lit (-4) 10))) as (o1 & _ & o2 & H1 & H2 & H3 & H4 & H5 & _).
  - split; vm_compute; reflexivity.
  - split; vm_compute; reflexivity.
  - rewrite (proj1 tn_points). exact (Forall2_cons _ _ A (Forall2_cons _ _ B (Forall2_nil _))).
  - rewrite (proj1 wd_points). exact (Forall2_cons _ _ C (Forall2_nil _)).
  - exact wd_sizes.
  - repeat apply Forall2_cons; try apply Forall2_nil; apply Rabs_le; lra.
  - repeat apply Forall2_cons; try apply Forall2_nil; apply Rabs_le; lra.
  - repeat apply Forall_cons; try apply Forall_nil; lia.
  - vm_compute. reflexivity.
  - exists o1, o2. rewrite !andb_true_iff in H5. destruct H5 as (((V1 & V2) & V3) & V4). apply wd_same_ok in V1, V2, V3, V4. repeat (split; [assumption|]). assumption.
Qed.
Lemma wd_second : exists o1 o2, recorded 3 f1 4 sm_lidar o1 [wd_1] /\ records 3 (max_range sm_lidar) f1 (om_grid o1) wd_2 sm_b wd_b2 /\ om_integrate 3072 as_is as_is o1 sm_b wd_b2 = Ret o2 /\
  recorded 3 f1 4 sm_lidar o2 [wd_1; wd_2] /\
  (gm_get (om_grid o2) [6; 0; 5] = Ret (f32_lit 85 100) /\ gm_get (om_grid o2) [2; 0; 5] = Ret (f32_lit 85 100) /\ gm_get (om_grid o2) [4; 0; 4] = Ret (f32_lit (-8) 10) /\ gm_get (om_grid o2) [6; 0; 4] = Ret (f32_lit (-4) 10))%Z.
Proof.
  destruct wd_values as (_ & _ & _ & A & B & C).
  destruct (wd_recorded 4 wd_b1 wd_b2 [[2 + / 256; 0; 1]; [4; 0; - / 256]] [[-2; / 256; 1 - / 256]] 0 0 (-4) (-4) 0 (-4) (fun _ => true) (fun g => wd_same g [6; 0; 5]%Z (f32_lit 85 100) && wd_same g [2; 0; 5]%Z (f32_lit 85 100) && wd_same g [4; 0; 4]%Z (f32_lit (-8) 10) && wd_same g [6; 0; 4]%Z (f32_lit (-4) 10))) as (o1 & _ & o2 & H1 & H2 & H3 & H4 & H5 & _).
  - split; vm_compute; reflexivity.
  - split; vm_compute; reflexivity.
  - rewrite (proj1 (proj2 wd_points)). exact (Forall2_cons _ _ A (Forall2_cons _ _ B (Forall2_nil _))).
  - rewrite (proj2 (proj2 wd_points)). exact (Forall2_cons _ _ C (Forall2_nil _)).
  - exact wd_sizes'.
  - repeat apply Forall2_cons; try apply Forall2_nil; apply Rabs_le; lra.
  - repeat apply Forall2_cons; try apply Forall2_nil; apply Rabs_le; lra.
  - repeat apply Forall_cons; try apply Forall_nil; lia.
  - vm_compute. reflexivity.
  - exists o1, o2. rewrite !andb_true_iff in H5. destruct H5 as (((V1 & V2) & V3) & V4). apply wd_same_ok in V1, V2, V3, V4. repeat (split; [assumption|]). assumption.
Qed.

Lemma whole_cell : forall l : list Z, nearest_cell (repeat 0 (length l)) 1 (map IZR l) = l.
Proof.
  unfold nearest_cell. induction l as [|z l IH]; [reflexivity|]. cbn [length repeat map map2]. rewrite IH. f_equal.
  replace ((IZR z - 0) / 1) with (IZR z) by field. apply Znearest_imp. rewrite Rminus_diag_eq, Rabs_R0 by reflexivity. lra.
Qed.
Lemma wd_ends : exists o1 g1 cb, recorded 3 f1 2 sm_lidar o1 [wd_1] /\ records 3 (max_range sm_lidar) f1 (om_grid o1) wd_2 sm_b wd_a2 /\
  gm_expand_bounds (om_grid o1) (pc_bounds wd_a2) f0 = Ret g1 /\ covers_cells 3 f1 2 g1 cb /\
  in_box cb (nearest_cell (world 3) (real f1) (fst wd_2)) /\ (forall q, In q (snd wd_2) -> in_box cb (nearest_cell (world 3) (real f1) q)).
Proof.
  destruct wd_values as (A & B & C & _).
  destruct (wd_recorded 2 tn_cloud wd_a2 [[2; 0; 1]; [4; 0; 0]] [[-2; 0; 1]] 0 0 0 (-2) 0 0 (fun g => in_boxb (cb_from_bounds (gm_bounds g) f1) [0; 0; 0]%Z && in_boxb (cb_from_bounds (gm_bounds g) f1) [-2; 0; 1]%Z) (fun g => true)) as (o1 & g2 & o2 & H1 & H2 & _ & _ & _ & E & H3).
  - split; vm_compute; reflexivity.
  - split; vm_compute; reflexivity.
  - rewrite (proj1 tn_points). exact (Forall2_cons _ _ A (Forall2_cons _ _ B (Forall2_nil _))).
  - rewrite (proj1 wd_points). exact (Forall2_cons _ _ C (Forall2_nil _)).
  - exact wd_sizes.
  - repeat apply Forall2_cons; try apply Forall2_nil; apply Rabs_le; lra.
  - repeat apply Forall2_cons; try apply Forall2_nil; apply Rabs_le; lra.
  - repeat apply Forall_cons; try apply Forall_nil; lia.
  - vm_compute. reflexivity.
  - rewrite andb_true_iff, !in_boxb_iff in H3. destruct H3 as [B1 B2]. destruct tn_numbers as (_ & (_ & R1) & _).
    destruct (recorded_facts _ _ _ _ _ _ H1) as [_ Rg]. assert (R2 : reachable 3 f1 2 g2) by (eapply reach_expand; [exact Rg|exact (proj1 (proj2 H2))|exact E]).
    assert (M3 : map_range 3 f1 2) by (split; [now right|]; split; [exact res_one|lia]).
    exists o1, g2, (cb_from_bounds (gm_bounds g2) f1). split; [exact H1|]. split; [exact H2|]. split; [exact E|]. split; [exact (covers_cells_computed _ 3 f1 2 g2 M3 R2)|].
    rewrite R1. split; [change (fst wd_2) with (map IZR [0; 0; 0]%Z); change (world 3) with (repeat 0 (length [0; 0; 0]%Z)); rewrite whole_cell; exact B1|].
    intros q [<-|[]]. change wd_N with (map IZR [-2; 0; 1]%Z). change (world 3) with (repeat 0 (length [-2; 0; 1]%Z)). rewrite whole_cell. exact B2.
Qed.
