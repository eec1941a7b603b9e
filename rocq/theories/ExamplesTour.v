(** A drive past four walls: two frames, of three and four points. *)
From Coq Require Import ZArith List Bool Reals Lia Lra Permutation Sorted Strings.Byte.
From Flocq Require Import Core BinarySingleNaN.
From Verif Require Import Base F32 F64 FloatFacts Arith Geom NdArray GridMap RayCaster NoiseModel Kitti Spec SpecMap SpecNoise SpecKitti SpecBack SpecMeet SpecNear RoundError MathProofs KittiProofs OxtProofs DirProofs GpsProofs Examples ExamplesKitti Viz SpecViz MainProofs ProgramProofs LiveProofs Pose SpecPose SpecMain PoseProofs StartProofs ExamplesPose SceneProofs ScanProofs ExamplesScene SpecWorld SpecWall SpecTour TourProofs TourFileProofs.
Open Scope R_scope.

Definition tr_bytes1 : bytes :=
  [x00; x00; xa8; xbe;  x00; x00; xe0; xbc;  x00; x00; xe0; xbc;  x00; x00; x00; x00;
   x00; x00; x80; x3c;  x00; x00; xa0; x3e;  x00; x00; x80; x3c;  x00; x00; x00; x00;
   x00; x00; x80; x3c;  x00; x00; x80; x3c;  x00; x00; xa0; x3e;  x00; x00; x00; x00].
Definition tr_bytes2 : bytes :=
  [x00; x00; x98; xbe;  x00; x00; x58; xbc;  x00; x00; x58; xbc;  x00; x00; x00; x00;
   x00; x00; xa0; x3e;  x00; x00; x80; x3c;  x00; x00; x80; x3c;  x00; x00; x00; x00;
   x00; x00; x80; x3c;  x00; x00; xa0; x3e;  x00; x00; x80; x3c;  x00; x00; x00; x00;
   x00; x00; x80; x3c;  x00; x00; x80; x3c;  x00; x00; xa0; x3e;  x00; x00; x00; x00].
Definition tr_velodyne : directory :=
  mkDir (IoOk [IoOk name10; IoOk name02]) (fun n => if name_leb n name02 then IoOk tr_bytes1 else IoOk tr_bytes2).
Definition tr_folder : folder := mkFolder true true still_oxts tr_velodyne.
Definition tr_lookup (path : bytes) : folder := tr_folder.
Definition tr_cloud1 : matrix := mkMatrix 3 3 [f32_lit (-21) 64; f32_lit (-7) 256; f32_lit (-7) 256;
  f32_lit (1) 64; f32_lit (5) 16; f32_lit (1) 64;
  f32_lit (1) 64; f32_lit (1) 64; f32_lit (5) 16].
Definition tr_cloud2 : matrix := mkMatrix 3 4 [f32_lit (-19) 64; f32_lit (-27) 2048; f32_lit (-27) 2048;
  f32_lit (5) 16; f32_lit (1) 64; f32_lit (1) 64;
  f32_lit (1) 64; f32_lit (5) 16; f32_lit (1) 64;
  f32_lit (1) 64; f32_lit (1) 64; f32_lit (5) 16].
Definition tr_ms : list matrix := [tr_cloud1; tr_cloud2].

Lemma tr_points : pc_points tr_cloud1 = [[f32_lit (-21) 64; f32_lit (-7) 256; f32_lit (-7) 256]; [f32_lit (1) 64; f32_lit (5) 16; f32_lit (1) 64]; [f32_lit (1) 64; f32_lit (1) 64; f32_lit (5) 16]] /\
  pc_points tr_cloud2 = [[f32_lit (-19) 64; f32_lit (-27) 2048; f32_lit (-27) 2048]; [f32_lit (5) 16; f32_lit (1) 64; f32_lit (1) 64]; [f32_lit (1) 64; f32_lit (5) 16; f32_lit (1) 64]; [f32_lit (1) 64; f32_lit (1) 64; f32_lit (5) 16]].
Proof. split; reflexivity. Qed.
Lemma tr_drive : drive ex_sys tr_folder still_vs tr_ms.
Proof.
  destruct still_drive as (_ & _ & _ & O & _). destruct tr_points as [T1 T2].
  split; [reflexivity|]. split; [reflexivity|]. split; [reflexivity|]. split; [exact O|]. exists [name02; name10]. split; [apply ex_order|].
  constructor; [|constructor; [|constructor]].
  - exists tr_bytes1. split; [reflexivity|]. split; [reflexivity|]. split; [reflexivity|]. split; [reflexivity|].
    rewrite T1. cbn [map seq length Nat.div Nat.divmod fst tr_bytes1].
    repeat (apply f_equal2; [|]); try reflexivity; apply f32_eq; vm_compute; reflexivity.
  - exists tr_bytes2. split; [reflexivity|]. split; [reflexivity|]. split; [reflexivity|]. split; [reflexivity|].
    rewrite T2. cbn [map seq length Nat.div Nat.divmod fst tr_bytes2].
    repeat (apply f_equal2; [|]); try reflexivity; apply f32_eq; vm_compute; reflexivity.
Qed.

Lemma tr_numbers : (finite (f32_lit (-21) 64) /\ real (f32_lit (-21) 64) = (-21) / 64) /\
  (finite (f32_lit (-19) 64) /\ real (f32_lit (-19) 64) = (-19) / 64) /\
  (finite (f32_lit (-7) 256) /\ real (f32_lit (-7) 256) = (-7) / 256) /\
  (finite (f32_lit (-27) 2048) /\ real (f32_lit (-27) 2048) = (-27) / 2048) /\
  (finite (f32_lit (1) 64) /\ real (f32_lit (1) 64) = 1 / 64) /\
  (finite (f32_lit (5) 16) /\ real (f32_lit (5) 16) = 5 / 16).
Proof. unfold real. repeat split; match goal with |- context [f32_lit ?a ?b] => closed_float (f32_lit a b) end; try (rewrite V; lra); reflexivity. Qed.
Definition tr_A : list R := [(-21) / 64; (-7) / 256; (-7) / 256].
Definition tr_A2 : list R := [(-19) / 64; (-27) / 2048; (-27) / 2048].
Definition tr_B : list R := [5 / 16; 1 / 64; 1 / 64].
Definition tr_C : list R := [1 / 64; 5 / 16; 1 / 64].
Definition tr_D : list R := [1 / 64; 1 / 64; 5 / 16].

(** The points as seen from [o]. *)
Definition tr_at (o p : list R) : list R := map2 Rplus p o.
Definition tr_view (o : list R) (ps : list (list R)) : scene := (o, map (tr_at o) ps).
Lemma tr_scene1 : scene_of ex_sys still_vs 0 still_oxt tr_cloud1 = tr_view [0; 0; 0] [tr_A; tr_C; tr_D].
Proof.
  unfold scene_of, tr_view, tr_at. change (position ex_sys still_vs 0 still_oxt) with (f0, f0, f0). cbn [coords]. rewrite (proj1 tr_points). cbn [map]. unfold still_oxt. cbn [oxt_roll oxt_pitch oxt_yaw].
  rewrite (proj2 (real_Z 0 ltac:(lia))), !turned_zero. unfold triple. cbn [nth plus3 list3]. change (real f0) with 0.
  destruct tr_numbers as ((_ & N0) & (_ & N1) & (_ & N2) & (_ & N3) & (_ & N4) & _ & N5). rewrite ?N0, ?N1, ?N2, ?N3, ?N4, ?N5. reflexivity.
Qed.
Lemma tr_scene2 : exists o, length o = 3%nat /\ (forall i, (i < 3)%nat -> Rabs (nth i o 0) <= / 1000) /\
  scene_of ex_sys still_vs 1 still_oxt tr_cloud2 = tr_view o [tr_A2; tr_B; tr_C; tr_D].
Proof.
  destruct (still_position 1) as (x & y & z & E & S). exists (map real [x; y; z]). split; [reflexivity|]. split.
  - inversion_clear S as [|? ? [_ X] S1]. inversion_clear S1 as [|? ? [_ Y] S2]. inversion_clear S2 as [|? ? [_ Z] _].
    intros [|[|[|i]]] H; cbn [nth map]; [assumption..|lia].
  - unfold scene_of, tr_view, tr_at. rewrite E. cbn [coords]. rewrite (proj2 tr_points). cbn [map]. unfold still_oxt. cbn [oxt_roll oxt_pitch oxt_yaw].
    rewrite (proj2 (real_Z 0 ltac:(lia))), !turned_zero. unfold triple. cbn [nth plus3 list3].
    destruct tr_numbers as ((_ & N0) & (_ & N1) & (_ & N2) & (_ & N3) & (_ & N4) & _ & N5). rewrite ?N0, ?N1, ?N2, ?N3, ?N4, ?N5. reflexivity.
Qed.

Section View.
Context (o : list R) (Lo : length o = 3%nat) (So : forall i, (i < 3)%nat -> Rabs (nth i o 0) <= / 1000).
Let r := real DEFAULT_RESOLUTION.
Lemma tr_res : r = 13421773 / 134217728. Proof. exact res_value. Qed.
Lemma tr_length : forall p, length p = 3%nat -> length (tr_at o p) = 3%nat.
Proof. intros p L. unfold tr_at. destruct o as [|a [|b [|c [|]]]], p as [|x [|y [|z [|]]]]; try discriminate L; try discriminate Lo. reflexivity. Qed.
Lemma tr_nth : forall p i, length p = 3%nat -> (i < 3)%nat -> nth i (tr_at o p) 0 = nth i p 0 + nth i o 0.
Proof. intros p i L H. unfold tr_at. destruct o as [|a [|b [|c [|]]]], p as [|x [|y [|z [|]]]]; try discriminate L; try discriminate Lo. destruct i as [|[|[|i]]]; [reflexivity..|lia]. Qed.
Lemma tr_seg : forall p u i, length p = 3%nat -> (i < 3)%nat -> nth i (seg o (tr_at o p) u) 0 = nth i o 0 + u * nth i p 0.
Proof. intros p u i L H. rewrite seg_nth, tr_nth by (try assumption; now apply tr_length). ring. Qed.

(** Beams along one axis. *)
Definition along (j : nat) (p : list R) : Prop := length p = 3%nat /\ forall i, (i < 3)%nat -> Rabs (nth i p 0) <= / 2 /\ (i <> j -> Rabs (nth i p 0) <= 7 / 256).
Lemma shrink : forall u x c, 0 <= u <= 1 -> Rabs x <= c -> Rabs (u * x) <= c.
Proof. intros u x c U H. rewrite Rabs_mult, (Rabs_pos_eq u) by lra. pose proof (Rabs_pos x). assert (u * Rabs x <= 1 * Rabs x) by (apply Rmult_le_compat_r; lra). lra. Qed.
Lemma tr_world : forall i : nat, nth i (world 3) 0 = 0.
Proof. intros [|[|[|[|i]]]]; reflexivity. Qed.

Lemma tr_border : forall x k, - 3 / 10 * r <= x <= 3 / 10 * r -> 3 / 16 * r <= Rabs (x - (IZR k + / 2) * r).
Proof.
  intros x k H. pose proof tr_res as RV. rewrite RV in *. destruct (Z_le_gt_dec 0 k) as [K|K].
  - apply IZR_le in K. rewrite Rabs_left1; lra.
  - assert (K' : (k + 1 <= 0)%Z) by lia. apply IZR_le in K'. rewrite plus_IZR in K'. rewrite Rabs_pos_eq; lra.
Qed.
Lemma tr_clear : forall j p, along j p -> (forall i k, (i < 3)%nat -> 3 / 16 * r <= Rabs (nth i (tr_at o p) 0 - (IZR k + / 2) * r)) ->
  clear_segment 60 (world 3) r o (tr_at o p).
Proof.
  intros j p [Lp Al] OB. pose proof tr_res as RV. assert (Lt : length (tr_at o p) = 3%nat) by now apply tr_length.
  assert (sm : forall i u k, (i < 3)%nat -> i <> j -> 0 <= u <= 1 -> 3 / 16 * r <= Rabs (nth i (seg o (tr_at o p) u) 0 - (IZR k + / 2) * r)).
  { intros i u k Hi N U. rewrite (tr_seg p u i Lp Hi). apply tr_border. pose proof (shrink u _ _ U (proj2 (Al i Hi) N)) as B. specialize (So i Hi). apply Rabs_le_inv in B, So. rewrite RV. lra. }
  split; [|split; [|split]].
  - intros i k Hi. rewrite Lo in Hi. rewrite tr_world, Rplus_0_l. apply Rle_trans with (3 / 16 * r); [lra|]. apply tr_border. specialize (So i Hi). apply Rabs_le_inv in So. lra.
  - intros i k Hi. rewrite Lt in Hi. rewrite tr_world, Rplus_0_l. specialize (OB i k Hi). lra.
  - intros u i i' k l U Hi Hi' N _ _ A B. rewrite Lo in Hi, Hi'. rewrite tr_world, Rplus_0_l in A, B.
    destruct (Nat.eq_dec i j) as [E|E]; [pose proof (sm i' u l Hi' ltac:(congruence) U)|pose proof (sm i u k Hi E U)]; lra.
  - intros x u L U G. left. rewrite Lo in L. destruct x as [|k0 [|k1 [|k2 [|]]]]; try discriminate L.
    assert (D : forall i, (i < 3)%nat -> Rabs (IZR (nth i [k0; k1; k2] 0%Z) * r - nth i o 0) <= 1).
    { intros i Hi. specialize (G i Hi). rewrite tr_world, Rplus_0_l, (tr_seg p u i Lp Hi) in G. pose proof (shrink u _ _ U (proj1 (Al i Hi))) as B. specialize (So i Hi). apply Rabs_le_inv in B, So, G. apply Rabs_le. rewrite RV in *. lra. }
    pose proof (D 0%nat ltac:(lia)) as D0. pose proof (D 1%nat ltac:(lia)) as D1. pose proof (D 2%nat ltac:(lia)) as D2.
    assert (Q : dist (cell_centre (world 3) r [k0; k1; k2]) o <= 2); [|lra].
    destruct o as [|a [|b [|c [|]]]]; try discriminate Lo. unfold dist, cell_centre, world. cbn [map2 repeat fold_right nth] in *. rewrite !Rplus_0_l.
    rewrite <- (sqrt_square 2) by lra. apply sqrt_le_1_alt.
    assert (sq : forall v, Rabs v <= 1 -> v * v <= 1). { intros v V. apply Rabs_le_inv in V. assert (0 <= (1 - v) * (1 + v)) by (apply Rmult_le_pos; lra). lra. }
    apply sq in D0, D1, D2. lra.
Qed.

Definition tr_walls (w : cell) : Prop := In w [[-3; 0; 0]; [3; 0; 0]; [0; 3; 0]; [0; 0; 3]]%Z.
Lemma tr_meets : forall p w i, length p = 3%nat -> length w = 3%nat -> (i < 3)%nat -> meets (world 3) r o (tr_at o p) w ->
  exists u, 0 <= u <= 1 /\ IZR (nth i w 0%Z) * r - r / 2 - / 1000 <= u * nth i p 0 <= IZR (nth i w 0%Z) * r + r / 2 + / 1000.
Proof.
  intros p w i Lp Lw Hi [_ (u & U & C)]. exists u. split; [exact U|]. specialize (C i ltac:(lia)). rewrite tr_world, Rplus_0_l, (tr_seg p u i Lp Hi) in C.
  specialize (So i Hi). apply Rabs_le_inv in C, So. lra.
Qed.
Lemma tr_apart : forall p w i x, length p = 3%nat -> length w = 3%nat -> (i < 3)%nat -> nth i p 0 = x ->
  (0 <= x /\ x < IZR (nth i w 0%Z) * r - r / 2 - / 1000) \/ (0 <= x /\ IZR (nth i w 0%Z) * r + r / 2 + / 1000 < 0) \/
  (x <= 0 /\ 0 < IZR (nth i w 0%Z) * r - r / 2 - / 1000) \/ (x <= 0 /\ IZR (nth i w 0%Z) * r + r / 2 + / 1000 < x) -> ~ meets (world 3) r o (tr_at o p) w.
Proof.
  intros p w i x Lp Lw Hi Ex H A. destruct (tr_meets p w i Lp Lw Hi A) as (u & U & B). rewrite Ex in B.
  destruct (Rle_or_lt 0 x) as [X|X].
  - assert (0 <= u * x) by (apply Rmult_le_pos; lra). assert (u * x <= 1 * x) by (apply Rmult_le_compat_r; lra). lra.
  - assert (0 <= u * - x) by (apply Rmult_le_pos; lra). assert (u * - x <= 1 * - x) by (apply Rmult_le_compat_r; lra). lra.
Qed.
Lemma tr_near : forall z x, Rabs (x - IZR z * r) < r / 2 -> ZnearestA ((x - 0) / r) = z.
Proof.
  intros z x H. pose proof tr_res as RV. apply Znearest_imp. replace ((x - 0) / r - IZR z) with ((x - IZR z * r) / r) by (field; rewrite RV; lra).
  unfold Rdiv. rewrite Rabs_mult, (Rabs_pos_eq (/ r)) by (left; apply Rinv_0_lt_compat; rewrite RV; lra).
  apply (Rmult_lt_reg_r r); [rewrite RV; lra|]. rewrite Rmult_assoc, Rinv_l by (rewrite RV; lra). lra.
Qed.
Lemma tr_nearest : forall p x y z a b c, p = [x; y; z] -> Rabs (x - IZR a * r) < 2 / 5 * r -> Rabs (y - IZR b * r) < 2 / 5 * r -> Rabs (z - IZR c * r) < 2 / 5 * r ->
  nearest_cell (world 3) r (tr_at o p) = [a; b; c].
Proof.
  intros p x y z a b c -> X Y Z. pose proof tr_res as RV. pose proof (So 0%nat ltac:(lia)) as S0. pose proof (So 1%nat ltac:(lia)) as S1. pose proof (So 2%nat ltac:(lia)) as S2.
  destruct o as [|u [|v [|w [|]]]]; try discriminate Lo. unfold nearest_cell, tr_at, world. cbn [map2 repeat nth] in *. apply Rabs_lt_inv in X, Y, Z. apply Rabs_le_inv in S0, S1, S2.
  rewrite (tr_near a), (tr_near b), (tr_near c); [reflexivity|..]; apply Rabs_lt; rewrite RV in *; lra.
Qed.
(** One beam in the world with the walls. *)
Lemma tr_beam : forall M p c, length p = 3%nat -> nearest_cell (world 3) r (tr_at o p) = c -> tr_walls c ->
  (forall w, tr_walls w -> w = c \/ ~ meets (world 3) r o (tr_at o p) w) ->
  (forall w, beam_passes M (world 3) r o (tr_at o p) w -> ~ tr_walls w) /\ (beam_arrives M (world 3) r o (tr_at o p) -> tr_walls (nearest_cell (world 3) r (tr_at o p))).
Proof.
  intros M p c Lp E W H. rewrite E. split; [|intros _; exact W]. intros w (A & B & _) K. rewrite E in B. destruct (H w K) as [Q|Q]; contradiction.
Qed.
Ltac apart i := right; eapply (tr_apart _ _ i); [reflexivity|reflexivity|lia|cbv [nth tr_A tr_A2 tr_B tr_C tr_D]; reflexivity|cbn [nth]; rewrite tr_res; lra].
Lemma tr_sees : forall ps, (forall p, In p ps -> In p [tr_A; tr_A2; tr_B; tr_C; tr_D]) -> sees 3 60 r tr_walls (tr_view o ps).
Proof.
  intros ps H q Hq. unfold tr_view in *. cbn [fst snd] in *. apply in_map_iff in Hq. destruct Hq as (p & <- & Hp). apply H in Hp. pose proof tr_res as RV.
  destruct Hp as [<-|[<-|[<-|[<-|[<-|[]]]]]].
  - apply (tr_beam _ _ [-3; 0; 0]%Z); [reflexivity|eapply tr_nearest; [reflexivity|..]; apply Rabs_lt; rewrite RV; lra|now left|].
    intros w [<-|[<-|[<-|[<-|[]]]]]; [now left|apart 0%nat|apart 1%nat|apart 2%nat].
  - apply (tr_beam _ _ [-3; 0; 0]%Z); [reflexivity|eapply tr_nearest; [reflexivity|..]; apply Rabs_lt; rewrite RV; lra|now left|].
    intros w [<-|[<-|[<-|[<-|[]]]]]; [now left|apart 0%nat|apart 1%nat|apart 2%nat].
  - apply (tr_beam _ _ [3; 0; 0]%Z); [reflexivity|eapply tr_nearest; [reflexivity|..]; apply Rabs_lt; rewrite RV; lra|now right; left|].
    intros w [<-|[<-|[<-|[<-|[]]]]]; [apart 0%nat|now left|apart 1%nat|apart 2%nat].
  - apply (tr_beam _ _ [0; 3; 0]%Z); [reflexivity|eapply tr_nearest; [reflexivity|..]; apply Rabs_lt; rewrite RV; lra|now right; right; left|].
    intros w [<-|[<-|[<-|[<-|[]]]]]; [apart 0%nat|apart 0%nat|now left|apart 2%nat].
  - apply (tr_beam _ _ [0; 0; 3]%Z); [reflexivity|eapply tr_nearest; [reflexivity|..]; apply Rabs_lt; rewrite RV; lra|now right; right; right; left|].
    intros w [<-|[<-|[<-|[<-|[]]]]]; [apart 0%nat|apart 0%nat|apart 1%nat|now left].
Qed.
Lemma tr_along : along 0 tr_A /\ along 0 tr_A2 /\ along 0 tr_B /\ along 1 tr_C /\ along 2 tr_D.
Proof. repeat split; try (intro N); destruct i as [|[|[|i]]]; try lia; cbv [nth tr_A tr_A2 tr_B tr_C tr_D]; apply Rabs_le; lra. Qed.

(** What is asked of the frames in files. *)
Lemma tr_scene_clear : scene_clear r (tr_view o [tr_A2; tr_B; tr_C; tr_D]).
Proof.
  intros i L. cbv zeta. pose proof (So i L) as Si. unfold tr_view. cbn [fst snd map]. pose proof tr_res as RV.
  assert (N : forall p, length p = 3%nat -> nth i (tr_at o p) 0 = nth i p 0 + nth i o 0) by (intros p Lp; now apply tr_nth). set (t := nth i o 0) in *. apply Rabs_le_inv in Si.
  assert (V : forall z x k, (IZR z - 3 / 10) * r <= x <= (IZR z + 3 / 10) * r -> 3 / 16 * r <= Rabs (x - (IZR k + / 2) * r)).
  { intros z x k H. replace (x - (IZR k + / 2) * r) with ((x - IZR z * r) - (IZR (k - z) + / 2) * r) by (rewrite minus_IZR; ring). apply tr_border. lra. }
  assert (I1 : In (tr_at o tr_A2) [tr_at o tr_A2; tr_at o tr_B; tr_at o tr_C; tr_at o tr_D]) by now left.
  assert (I2 : In (tr_at o tr_B) [tr_at o tr_A2; tr_at o tr_B; tr_at o tr_C; tr_at o tr_D]) by now right; left.
  assert (I3 : In (tr_at o tr_C) [tr_at o tr_A2; tr_at o tr_B; tr_at o tr_C; tr_at o tr_D]) by now right; right; left.
  assert (I4 : In (tr_at o tr_D) [tr_at o tr_A2; tr_at o tr_B; tr_at o tr_C; tr_at o tr_D]) by now right; right; right; left.
  pose proof (N tr_A2 eq_refl) as NA. pose proof (N tr_B eq_refl) as NB. pose proof (N tr_C eq_refl) as NC. pose proof (N tr_D eq_refl) as ND. rewrite RV in *.
  split; [right; exists (tr_at o tr_A2); split; [exact I1|]; rewrite NA; destruct i as [|[|[|i]]]; [..|lia]; cbv [nth tr_A2]; lra|].
  split; [right; exists (tr_at o tr_B); split; [exact I2|]; rewrite NB; destruct i as [|[|[|i]]]; [..|lia]; cbv [nth tr_B]; lra|].
  assert (Hi : exists q, In q [tr_at o tr_A2; tr_at o tr_B; tr_at o tr_C; tr_at o tr_D] /\ nth i q 0 = 5 / 16 + t).
  { destruct i as [|[|[|i]]]; [exists (tr_at o tr_B)|exists (tr_at o tr_C)|exists (tr_at o tr_D)|lia]; (split; [assumption|]); [rewrite NB|rewrite NC|rewrite ND]; reflexivity. }
  destruct Hi as (top & It & Et). split; [right; left; exists top; split; [exact It|]; rewrite Et; lra|].
  intros p [<-|[<-|[<-|[<-|[]]]]]; rewrite ?NA, ?NB, ?NC, ?ND; destruct i as [|[|[|i]]]; try lia; cbv [nth tr_A2 tr_B tr_C tr_D];
    (split; [first [left; lra|right; right; exists 0%Z; lra|right; right; exists 3%Z; lra|right; left; exists top; split; [exact It|]; apply Rle_trans with (5 / 16 + t); [lra|right; exact (eq_sym Et)]]|]);
    (split; [first [rewrite Rabs_pos_eq; lra|rewrite Rabs_left1; lra]|]);
    intro k; first [apply (V 0%Z); lra|apply (V 3%Z); lra|apply (V (-3)%Z); lra].
Qed.
End View.

(** The first frame, seen from the start. *)
Definition tr_start : list R := [0; 0; 0].
Lemma tr_start_ok : length tr_start = 3%nat /\ forall i, (i < 3)%nat -> Rabs (nth i tr_start 0) <= / 1000.
Proof. split; [reflexivity|]. intros [|[|[|i]]] H; try lia; cbn [nth tr_start]; rewrite Rabs_R0; lra. Qed.
Lemma tr_start_clear : scene_clear (real DEFAULT_RESOLUTION) (tr_view tr_start [tr_A; tr_C; tr_D]).
Proof.
  intros i L. cbv zeta. pose proof res_value as RV. unfold tr_view. cbn [fst snd map].
  assert (V : forall z x k, (IZR z - 3 / 10) * real DEFAULT_RESOLUTION <= x <= (IZR z + 3 / 10) * real DEFAULT_RESOLUTION -> 3 / 16 * real DEFAULT_RESOLUTION <= Rabs (x - (IZR k + / 2) * real DEFAULT_RESOLUTION)).
  { intros z x k H. replace (x - (IZR k + / 2) * real DEFAULT_RESOLUTION) with ((x - IZR z * real DEFAULT_RESOLUTION) - (IZR (k - z) + / 2) * real DEFAULT_RESOLUTION) by (rewrite minus_IZR; ring). apply (tr_border tr_start (proj1 tr_start_ok)). lra. }
  rewrite RV in *. destruct i as [|[|[|i]]]; [..|lia]; cbv [nth tr_start tr_at map2 tr_A tr_C tr_D].
  - split; [left; lra|]. split; [left; lra|]. split; [right; right; exists 0%Z; lra|].
    intros p [<-|[<-|[<-|[]]]]; (split; [first [left; lra|right; right; exists 0%Z; lra]|]); (split; [first [rewrite Rabs_pos_eq; lra|rewrite Rabs_left1; lra]|]); intro k; first [apply (V 0%Z); lra|apply (V (-3)%Z); lra].
  - split; [left; lra|]. split; [left; lra|]. split; [right; right; exists 0%Z; lra|].
    intros p [<-|[<-|[<-|[]]]]; (split; [first [right; right; exists 0%Z; lra|right; right; exists 3%Z; lra|right; left; eexists; split; [right; left; reflexivity|]; lra]|]); (split; [first [rewrite Rabs_pos_eq; lra|rewrite Rabs_left1; lra]|]); intro k; first [apply (V 0%Z); lra|apply (V 3%Z); lra].
  - split; [left; lra|]. split; [left; lra|]. split; [right; right; exists 0%Z; lra|].
    intros p [<-|[<-|[<-|[]]]]; (split; [first [right; right; exists 0%Z; lra|right; right; exists 3%Z; lra|right; left; eexists; split; [right; right; left; reflexivity|]; lra]|]); (split; [first [rewrite Rabs_pos_eq; lra|rewrite Rabs_left1; lra]|]); intro k; first [apply (V 0%Z); lra|apply (V 3%Z); lra].
Qed.

Definition tr_scenes : list scene := [scene_of ex_sys still_vs 0 still_oxt tr_cloud1; scene_of ex_sys still_vs 1 still_oxt tr_cloud2].
Lemma tr_scenes_of : scenes_of ex_sys still_vs tr_ms tr_scenes.
Proof. split; [reflexivity|]. intros [|[|k]] v m Hv Hm; cbn [nth_error still_vs tr_ms] in *; [| |destruct k; discriminate Hv]; injection Hv as <-; injection Hm as <-; reflexivity. Qed.
Lemma tr_scenes_clear : Forall (scene_clear (real DEFAULT_RESOLUTION)) tr_scenes.
Proof.
  destruct tr_scene2 as (o & Lo & So & E). unfold tr_scenes. rewrite E, tr_scene1.
  apply Forall_cons; [exact tr_start_clear|]. apply Forall_cons; [now apply tr_scene_clear|apply Forall_nil].
Qed.
Lemma tr_scenes_see : Forall (sees 3 60 (real DEFAULT_RESOLUTION) tr_walls) tr_scenes.
Proof.
  destruct tr_scene2 as (o & Lo & So & E). destruct tr_start_ok as [Ls Ss]. unfold tr_scenes. rewrite E, tr_scene1.
  apply Forall_cons; [|apply Forall_cons; [|apply Forall_nil]]; (apply tr_sees; [assumption|assumption|]); intros p Hp; cbn [In] in *; tauto.
Qed.
Lemma tr_segments : Forall (fun sc => Forall (clear_segment 60 (world 3) (real DEFAULT_RESOLUTION) (fst sc)) (snd sc)) tr_scenes.
Proof.
  destruct (tr_along tr_start (proj1 tr_start_ok)) as (AA & AA2 & AB & AC & AD).
  assert (G : forall o ps, length o = 3%nat -> (forall i, (i < 3)%nat -> Rabs (nth i o 0) <= / 1000) -> scene_clear (real DEFAULT_RESOLUTION) (tr_view o ps) ->
    Forall (fun p => exists j, along j p) ps -> Forall (clear_segment 60 (world 3) (real DEFAULT_RESOLUTION) (fst (tr_view o ps))) (snd (tr_view o ps))).
  { intros o ps Lo So SC A. cbn [fst snd tr_view]. apply Forall_forall. intros q Hq. pose proof Hq as Hq'. apply in_map_iff in Hq. destruct Hq as (p & <- & Hp). rewrite Forall_forall in A. destruct (A p Hp) as [j Aj].
    apply (tr_clear o Lo So j p Aj). intros i k Hi. destruct (SC i Hi) as (_ & _ & _ & K). apply (K (tr_at o p) Hq'). }
  destruct tr_scene2 as (o & Lo & So & E). destruct tr_start_ok as [Ls Ss]. unfold tr_scenes. rewrite E, tr_scene1.
  apply Forall_cons; [|apply Forall_cons; [|apply Forall_nil]]; apply G; try assumption; [exact tr_start_clear| |now apply tr_scene_clear|];
    repeat (apply Forall_cons; [eexists; eassumption|]); apply Forall_nil.
Qed.
Lemma tr_lowest : lowest_first (real DEFAULT_RESOLUTION) tr_scenes.
Proof.
  intros k sc0 sc q i H0 H Iq L. destruct tr_scene2 as (o & Lo & So & E). unfold tr_scenes in *. rewrite E, tr_scene1 in *. cbn [nth_error] in H0, H. injection H0 as <-.
  destruct k as [|k]; cbn [nth_error] in H; [|destruct k; discriminate H]. injection H as <-. unfold tr_view in *. cbn [snd map] in *. pose proof res_value as RV. rewrite RV.
  assert (N : forall p, length p = 3%nat -> nth i (tr_at o p) 0 = nth i p 0 + nth i o 0) by (intros p Lp; now apply tr_nth). specialize (So i L). apply Rabs_le_inv in So.
  destruct Iq as [<-|[<-|[<-|[<-|[]]]]]; rewrite N by reflexivity; [right; eexists; split; [left; reflexivity|]|left|left|left]; destruct i as [|[|[|i]]]; try lia; cbn [nth tr_A tr_A2 tr_B tr_C tr_D tr_at map2] in *; lra.
Qed.
Lemma tr_sizes : forall p, In p (pc_points tr_cloud1 ++ pc_points tr_cloud2) -> Forall finite p /\ dot3 (triple p) (triple p) <= 1.
Proof.
  intros p Hp. rewrite (proj1 tr_points), (proj2 tr_points) in Hp. cbn [app] in Hp. destruct tr_numbers as ((F0 & N0) & (F1 & N1) & (F2 & N2) & (F3 & N3) & (F4 & N4) & F5 & N5).
  repeat (destruct Hp as [<-|Hp]; [split; [repeat (apply Forall_cons; [assumption|]); apply Forall_nil|unfold triple, dot3; cbn [nth]; rewrite ?N0, ?N1, ?N2, ?N3, ?N4, ?N5; lra]|]). destruct Hp.
Qed.
Lemma tr_measured : measured ex_sys still_vs tr_ms /\ near_start ex_sys still_vs tr_ms.
Proof.
  assert (A : angle (f32_of_Z 0)) by (apply (small_f32 8); [lia|cbn; lra]).
  assert (K : forall k v m, nth_error still_vs k = Some v -> nth_error tr_ms k = Some m -> v = still_oxt /\ forall p, In p (pc_points m) -> Forall finite p /\ dot3 (triple p) (triple p) <= 1).
  { intros [|[|k]] v m Hv Hm; cbn [nth_error still_vs tr_ms] in *; [| |destruct k; discriminate Hv]; injection Hv as <-; injection Hm as <-; (split; [reflexivity|]); intros p Hp; apply tr_sizes; apply in_or_app; auto. }
  split; intros k v m Hv Hm; destruct (K k v m Hv Hm) as [-> P]; destruct (still_position k) as (x & y & z & E & S); rewrite E.
  - split; [exact A|]. split; [exact A|]. split; [exact A|]. split; [cbn [coords]; eapply Forall_impl; [|exact S]; intros v [F B]; split; [exact F|lra]|].
    intros p Hp. destruct (P p Hp) as [F D]. split; [exact F|lra].
  - split; [cbn [coords]; eapply Forall_impl; [|exact S]; intros v [F B]; split; [exact F|lra]|]. intros p Hp. destruct (P p Hp) as [F D]. lra.
Qed.
Lemma tr_runs : exists rec o st th ev, viz_main ex_sys tr_lookup [name10; name02] = Ret (Some rec) /\ om_default 3 coarse_ln = Ret o /\
  (recording_ok 3 DEFAULT_RESOLUTION DEFAULT_TILE_SIZE rec /\ first_lowest rec /\ Forall2 (taken_at 3 DEFAULT_MAX_RANGE DEFAULT_RESOLUTION) tr_scenes (combine (origins rec) (clouds rec))) /\
  execution rec o st th ev /\ fair rec st th.
Proof.
  assert (O : exists rec, viz_main ex_sys tr_lookup [name10; name02] = Ret (Some rec)).
  { apply main_opens. split; [apply ex_args|]. exists name02. split; [reflexivity|]. exists still_vs, tr_ms. exact tr_drive. }
  destruct O as (rec & E).
  assert (Q : match om_default 3 coarse_ln with Ret _ => true | _ => false end = true) by (vm_compute; reflexivity).
  destruct (om_default 3 coarse_ln) as [o| |] eqn:EO; try discriminate Q. exists rec, o.
  destruct (default_start coarse_ln o EO) as (m & Em & En). destruct (default_detects coarse_ln coarse_ln_special coarse_ln_monotone coarse_ln_positive) as (m' & Em' & _ & _ & _ & HM). rewrite Em in Em'. injection Em' as <-.
  destruct tr_measured as [ME NS].
  assert (RO : recording_ok 3 DEFAULT_RESOLUTION DEFAULT_TILE_SIZE rec).
  { apply (drive_recording ex_sys tr_lookup [name10; name02] name02 rec still_vs tr_ms tr_scenes E eq_refl tr_drive); [discriminate|exact ex_trig|exact ME|exact tr_scenes_of|exact tr_scenes_clear]. }
  destruct (fair_exists rec 3 _ _ m o RO HM En) as (st & th & ev & X & F). exists st, th, ev. split; [exact E|]. split; [reflexivity|]. split; [|auto]. split; [exact RO|].
  split; [exact (drive_lowest ex_sys tr_lookup [name10; name02] name02 rec still_vs tr_ms tr_scenes E eq_refl tr_drive ex_trig ME tr_scenes_of tr_lowest)|].
  exact (drive_taken ex_sys tr_lookup [name10; name02] name02 rec still_vs tr_ms tr_scenes E eq_refl tr_drive ex_trig ME NS tr_scenes_of tr_segments).
Qed.
(** What the frames hit: the first three walls and not the last, then all. *)
Lemma tr_hits : tour_hits 3 60 (real DEFAULT_RESOLUTION) (firstn 1 tr_scenes) [-3; 0; 0]%Z /\ ~ tour_hits 3 60 (real DEFAULT_RESOLUTION) (firstn 1 tr_scenes) [3; 0; 0]%Z /\
  tour_hits 3 60 (real DEFAULT_RESOLUTION) tr_scenes [3; 0; 0]%Z.
Proof.
  destruct tr_scene2 as (o & Lo & So & E). destruct tr_start_ok as [Ls Ss]. unfold tr_scenes. rewrite E, tr_scene1. change [0; 0; 0] with tr_start. cbn [firstn]. pose proof res_value as RV.
  assert (near : forall o p j y, length o = 3%nat -> (forall i, (i < 3)%nat -> Rabs (nth i o 0) <= / 1000) -> along j p -> ~ too_long 60 (world 3) (real DEFAULT_RESOLUTION) o (tr_at o p) y).
  { clear. intros o p j y Lo So [Lp Al] ((L & u & U & G) & _ & _ & D). rewrite Lo in L. pose proof res_value as RV. destruct y as [|k0 [|k1 [|k2 [|]]]]; try discriminate L.
    assert (B : forall i, (i < 3)%nat -> Rabs (IZR (nth i [k0; k1; k2] 0%Z) * real DEFAULT_RESOLUTION - nth i o 0) <= 1).
    { intros i Hi. specialize (G i Hi). rewrite tr_world, Rplus_0_l, (tr_seg o Lo So p u i Lp Hi) in G. pose proof (shrink u _ _ U (proj1 (Al i Hi))) as B. specialize (So i Hi). apply Rabs_le_inv in B, So, G. apply Rabs_le. rewrite RV in *. lra. }
    pose proof (B 0%nat ltac:(lia)) as D0. pose proof (B 1%nat ltac:(lia)) as D1. pose proof (B 2%nat ltac:(lia)) as D2.
    assert (Q : dist (cell_centre (world 3) (real DEFAULT_RESOLUTION) [k0; k1; k2]) o <= 2); [|lra].
    destruct o as [|a [|b [|c [|]]]]; try discriminate Lo. unfold dist, cell_centre, world. cbn [map2 repeat fold_right nth] in *. rewrite !Rplus_0_l.
    rewrite <- (sqrt_square 2) by lra. apply sqrt_le_1_alt.
    assert (sq : forall v, Rabs v <= 1 -> v * v <= 1). { intros v V. apply Rabs_le_inv in V. assert (0 <= (1 - v) * (1 + v)) by (apply Rmult_le_pos; lra). lra. }
    apply sq in D0, D1, D2. lra. }
  destruct (tr_along tr_start Ls) as (AA & AA2 & AB & AC & AD).
  split; [|split].
  - exists (tr_view tr_start [tr_A; tr_C; tr_D]). split; [now left|]. exists (tr_at tr_start tr_A). split; [now left|]. split.
    + symmetry. eapply (tr_nearest _ Ls Ss); [reflexivity|..]; apply Rabs_lt; rewrite RV; lra.
    + intro y. now apply (near tr_start tr_A 0%nat).
  - intros (s & [<-|[]] & q & Hq & Eq & _). cbn [snd tr_view map] in Hq. destruct Hq as [<-|[<-|[<-|[]]]].
    + erewrite (tr_nearest _ Ls Ss tr_A _ _ _ (-3) 0 0) in Eq; [discriminate Eq|reflexivity|..]; apply Rabs_lt; rewrite RV; lra.
    + erewrite (tr_nearest _ Ls Ss tr_C _ _ _ 0 3 0) in Eq; [discriminate Eq|reflexivity|..]; apply Rabs_lt; rewrite RV; lra.
    + erewrite (tr_nearest _ Ls Ss tr_D _ _ _ 0 0 3) in Eq; [discriminate Eq|reflexivity|..]; apply Rabs_lt; rewrite RV; lra.
  - exists (tr_view o [tr_A2; tr_B; tr_C; tr_D]). split; [now right; left|]. exists (tr_at o tr_B). split; [now right; left|]. split.
    + symmetry. eapply (tr_nearest _ Lo So); [reflexivity|..]; apply Rabs_lt; rewrite RV; lra.
    + intro y. now apply (near o tr_B 0%nat).
Qed.
