(** From the numbers in the files to what is on display. *)
From Coq Require Import ZArith List Bool Reals Lra Lia Permutation Sorted.
From Flocq Require Import Core BinarySingleNaN.
From Verif Require Import Base F32 F64 Arith Geom NdArray GridMap RayCaster NoiseModel Kitti Spec SpecMap SpecNoise SpecKitti FloatFacts RoundError GeomProofs MapProofs CloudProofs ScanProofs Viz SpecViz VizProofs MainProofs ProgramProofs LiveProofs CornerProofs Pose SpecPose SpecMain PoseProofs StartProofs Examples.
Open Scope R_scope.

(** A point in floats and the point it stands for. *)
Definition close (r : f32) (q : list R) (f : point) : Prop :=
  length q = 3%nat /\ length f = 3%nat /\ Forall finite f /\ forall i, (i < 3)%nat -> Rabs (real (nth i f f0) - nth i q 0) <= / 16 * real r.

Lemma close_in_l : forall r l l' q, Forall2 (close r) l l' -> In q l -> exists f, In f l' /\ close r q f.
Proof. intros r l l' q H. induction H as [|a b l l' C H IH]; intro I; [destruct I|]. destruct I as [->|I]; [exists b; split; [now left|assumption]|]. destruct (IH I) as (f & I' & C'). exists f. split; [now right|assumption]. Qed.
Lemma close_in_r : forall r l l' f, Forall2 (close r) l l' -> In f l' -> exists q, In q l /\ close r q f.
Proof. intros r l l' f H. induction H as [|a b l l' C H IH]; intro I; [destruct I|]. destruct I as [->|I]; [exists a; split; [now left|assumption]|]. destruct (IH I) as (q & I' & C'). exists q. split; [now right|assumption]. Qed.

Lemma Forall_nth_f : forall (P : f32 -> Prop) l i, Forall P l -> (i < length l)%nat -> P (nth i l f0).
Proof. intros P l i F L. rewrite Forall_forall in F. apply F, nth_In, L. Qed.

Section Frame.
Context (r : f32) (o : point) (cloud : matrix) (pts : list (list R)).
Hypothesis Rr : bpow radix2 (-30) <= real r <= bpow radix2 30.
Hypothesis Lo : length o = 3%nat.
Hypothesis Wo : Forall (within_cells (2 ^ 14) r) o.
Hypothesis MO : matrix_ok cloud.
Hypothesis N3 : nrows cloud = 3%nat.
Hypothesis Wd : Forall (within_cells (2 ^ 14) r) (mdata cloud).
Hypothesis CL : Forall2 (close r) pts (pc_points cloud).

Lemma rpos : 0 < real r.
Proof. pose proof (bpow_gt_0 radix2 (-30)). lra. Qed.
Lemma finite_data : Forall finite (mdata cloud).
Proof. eapply Forall_impl; [|exact Wd]. now intros x [F _]. Qed.
Lemma lengths : length (bmin (pc_bounds cloud)) = 3%nat /\ length (bmax (pc_bounds cloud)) = 3%nat.
Proof. destruct (pc_bounds_spec cloud MO) as ((L1 & L2 & _) & _). rewrite N3 in *. auto. Qed.
Lemma box_finite : forall i, (i < 3)%nat -> finite (nth i (bmin (pc_bounds cloud)) f0) /\ finite (nth i (bmax (pc_bounds cloud)) f0).
Proof.
  intros i L. destruct (bounds_pick finite cloud eq_refl finite_data) as [B1 B2]. destruct lengths as [L1 L2].
  split; apply Forall_nth_f; try assumption; lia.
Qed.
Lemma box_zero : forall i, (i < 3)%nat -> real (nth i (bmin (pc_bounds cloud)) f0) <= 0 <= real (nth i (bmax (pc_bounds cloud)) f0).
Proof.
  intros i L. destruct (pc_bounds_spec cloud MO) as (_ & (I1 & I2) & _). rewrite N3 in I1, I2. destruct lengths as [L1 L2]. destruct (box_finite i L) as [F1 F2].
  assert (E : nth i (origin 3) f0 = f0) by (destruct i as [|[|[|i]]]; [reflexivity..|lia]).
  apply (proj1 (Forall2_nth_iff fle f0 f0 _ (origin 3) L1)) with (i := i) in I1; [|now rewrite L1]. apply (proj1 (Forall2_nth_iff fle f0 f0 (origin 3) _ (eq_sym L2))) with (i := i) in I2; [|exact L].
  rewrite E in I1, I2. apply fle_real in I1; [|assumption|reflexivity]. apply fle_real in I2; [|reflexivity|assumption]. exact (conj I1 I2).
Qed.
Lemma box_point : forall f i, In f (pc_points cloud) -> (i < 3)%nat ->
  real (nth i (bmin (pc_bounds cloud)) f0) <= real (nth i f f0) <= real (nth i (bmax (pc_bounds cloud)) f0).
Proof.
  intros f i I L. destruct (pc_bounds_spec cloud MO) as (_ & _ & C & _). destruct (C f I) as [C1 C2]. destruct lengths as [L1 L2]. destruct (box_finite i L) as [F1 F2].
  destruct (close_in_r _ _ _ _ CL I) as (q & _ & _ & Lf & Ff & _). assert (F : finite (nth i f f0)) by (apply Forall_nth_f; [assumption|now rewrite Lf]).
  assert (NN : is_nan (nth i f f0) = false) by (apply is_finite_not_nan; exact F).
  apply (proj1 (Forall2_nth_iff _ f0 f0 _ _ (eq_trans L1 (eq_sym Lf)))) with (i := i) in C1; [|now rewrite L1].
  apply (proj1 (Forall2_nth_iff _ f0 f0 _ _ (eq_trans Lf (eq_sym L2)))) with (i := i) in C2; [|now rewrite Lf].
  destruct C1 as [C1|C1]; [congruence|]. destruct C2 as [C2|C2]; [congruence|].
  apply fle_real in C1; [|assumption|assumption]. apply fle_real in C2; [|assumption|assumption]. exact (conj C1 C2).
Qed.

Lemma origin_nth : forall i, (i < 3)%nat -> nth i (map real o) 0 = real (nth i o f0).
Proof. intros i L. change 0 with (real f0). apply map_nth. Qed.

Hypothesis SC : scene_clear (real r) (map real o, pts).

Lemma top_reach : forall q i, In q pts -> (i < 3)%nat -> nth i q 0 - / 16 * real r <= real (nth i (bmax (pc_bounds cloud)) f0).
Proof.
  intros q i I L. destruct (close_in_l _ _ _ _ CL I) as (f & If & _ & _ & _ & C). specialize (C i L). apply Rabs_le_inv in C. pose proof (box_point f i If L). lra.
Qed.
Lemma bottom_reach : forall q i, In q pts -> (i < 3)%nat -> real (nth i (bmin (pc_bounds cloud)) f0) <= nth i q 0 + / 16 * real r.
Proof.
  intros q i I L. destruct (close_in_l _ _ _ _ CL I) as (f & If & _ & _ & _ & C). specialize (C i L). apply Rabs_le_inv in C. pose proof (box_point f i If L). lra.
Qed.

Hypothesis NEAR : forall f i, In f (pc_points cloud) -> (i < 3)%nat -> Rabs (real (nth i o f0) - real (nth i f f0)) <= 1023 * real r.

Lemma frame_clear : frame_ok 3 r o cloud.
Proof.
  pose proof rpos as P. destruct lengths as [L1 L2]. split; [assumption|]. split; [assumption|]. split; [assumption|]. split; [assumption|]. split; [assumption|].
  assert (Fo : forall i, (i < 3)%nat -> finite (nth i o f0)).
  { intros i L. apply (Forall_nth_f finite); [|now rewrite Lo]. eapply Forall_impl; [|exact Wo]. now intros x [F _]. }
  split; [|split].
  - split; apply (Forall2_nth_iff _ f0 f0); try congruence; intros i L; [rewrite L1 in L|rewrite Lo in L]; destruct (box_finite i L) as [F1 F2]; destruct (box_zero i L) as [Z1 Z2]; pose proof (Fo i L) as FO;
      destruct (SC i L) as (S1 & S2 & _); cbn [fst snd] in S1, S2; rewrite (origin_nth i L) in S1, S2; apply fleb_iff; (split; [now apply is_finite_not_nan|]); (split; [now apply is_finite_not_nan|]).
    + rewrite !ext_finite by assumption. change (real (nth i (bmin (pc_bounds cloud)) f0) <= real (nth i o f0)).
      destruct S1 as [S1|(q & Iq & S1)]; [lra|]. pose proof (bottom_reach q i Iq L). lra.
    + rewrite !ext_finite by assumption. change (real (nth i o f0) <= real (nth i (bmax (pc_bounds cloud)) f0)).
      destruct S2 as [S2|(q & Iq & S2)]; [lra|]. pose proof (top_reach q i Iq L). lra.
  - apply (Forall2_nth_iff _ f0 f0); [congruence|]. intros i L. rewrite Lo in L. destruct (box_zero i L) as [Z1 Z2]. destruct (SC i L) as (_ & _ & S3 & _). cbn [fst snd] in S3. rewrite (origin_nth i L) in S3.
    destruct S3 as [S3|[(q & Iq & S3)|(k & S3)]]; [left; lra|left; pose proof (top_reach q i Iq L); lra|right; now exists k].
  - intros f If. destruct (close_in_r _ _ _ _ CL If) as (q & Iq & Lq & Lf & Ff & C). split; [|split; [|split]].
    + apply (Forall2_nth_iff _ f0 f0); [congruence|]. intros i L. rewrite Lf in L. destruct (box_zero i L) as [Z1 Z2]. specialize (C i L). apply Rabs_le_inv in C.
      destruct (SC i L) as (_ & _ & _ & S4). destruct (S4 q Iq) as (S5 & _). cbn [fst snd] in S5.
      destruct S5 as [S5|[(q' & Iq' & S5)|(k & S5)]]; [left; lra|left; pose proof (top_reach q' i Iq' L); lra|right; exists k; lra].
    + apply (Forall2_nth_iff _ f0 f0); [congruence|]. intros i L. rewrite Lo in L. right. specialize (C i L). destruct (SC i L) as (_ & _ & _ & S4). destruct (S4 q Iq) as (_ & S5 & _). cbn [fst snd] in S5. rewrite (origin_nth i L) in S5.
      assert (B : bpow radix2 (-40) <= / 16) by (change (/ 16) with (bpow radix2 (-4)); apply bpow_le; lia).
      assert (B' : bpow radix2 (-40) * real r <= / 16 * real r) by (apply Rmult_le_compat_r; lra).
      apply Rle_trans with (1 := B'). apply Rabs_le_inv in C. revert S5. unfold Rabs. destruct (Rcase_abs _), (Rcase_abs _); intro; lra.
    + apply (Forall2_nth_iff _ f0 f0); [congruence|]. intros i L. rewrite Lo in L. now apply NEAR.
    + intros i k L _. rewrite Lf in L. specialize (C i L). destruct (SC i L) as (_ & _ & _ & S4). destruct (S4 q Iq) as (_ & _ & S5). specialize (S5 k). cbv zeta in S5.
      apply Rabs_le_inv in C. revert S5. unfold Rabs. destruct (Rcase_abs _), (Rcase_abs _); intro; lra.
Qed.
End Frame.

(** ** What a scene says *)
Lemma norm_add : forall a1 a2 a3 d1 d2 d3 e, 0 <= e -> Rabs d1 <= e / 2 -> Rabs d2 <= e / 2 -> Rabs d3 <= e / 2 ->
  sqrt ((a1 + d1) * (a1 + d1) + ((a2 + d2) * (a2 + d2) + ((a3 + d3) * (a3 + d3) + 0))) <= sqrt (a1 * a1 + (a2 * a2 + (a3 * a3 + 0))) + e.
Proof.
  intros a1 a2 a3 d1 d2 d3 e E H1 H2 H3. set (S := a1 * a1 + (a2 * a2 + (a3 * a3 + 0))).
  pose proof (Rle_0_sqr a1) as Q1. pose proof (Rle_0_sqr a2) as Q2. pose proof (Rle_0_sqr a3) as Q3. unfold Rsqr in *.
  assert (S0 : 0 <= S) by (unfold S; lra). pose proof (sqrt_pos S) as A0. pose proof (sqrt_sqrt S S0) as AA. set (A := sqrt S) in *.
  apply Rsqr_incr_0_var; [|lra]. rewrite Rsqr_sqrt.
  2: { pose proof (Rle_0_sqr (a1 + d1)). pose proof (Rle_0_sqr (a2 + d2)). pose proof (Rle_0_sqr (a3 + d3)). unfold Rsqr in *. lra. }
  unfold Rsqr. assert (B : forall a d, Rabs d <= e / 2 -> a * d <= Rabs a * (e / 2) /\ d * d <= e * e / 4).
  { intros a d Hd. split.
    - apply Rle_trans with (1 := Rle_abs _). rewrite Rabs_mult. apply Rmult_le_compat_l; [apply Rabs_pos|assumption].
    - assert (d * d = Rabs d * Rabs d) as -> by (unfold Rabs; destruct (Rcase_abs d); lra). replace (e * e / 4) with (e / 2 * (e / 2)) by field. apply Rmult_le_compat; try assumption; apply Rabs_pos. }
  destruct (B a1 d1 H1) as [B1 C1]. destruct (B a2 d2 H2) as [B2 C2]. destruct (B a3 d3 H3) as [B3 C3].
  assert (T : Rabs a1 + Rabs a2 + Rabs a3 <= 2 * A).
  { apply Rsqr_incr_0_var; [|lra]. unfold Rsqr.
    assert (K : forall x, x * x = Rabs x * Rabs x) by (intro x; unfold Rabs; destruct (Rcase_abs x); lra).
    replace (2 * A * (2 * A)) with (4 * (A * A)) by ring. rewrite AA. unfold S. rewrite (K a1), (K a2), (K a3).
    pose proof (Rle_0_sqr (Rabs a1 - Rabs a2)) as D1. pose proof (Rle_0_sqr (Rabs a1 - Rabs a3)) as D2. pose proof (Rle_0_sqr (Rabs a2 - Rabs a3)) as D3. unfold Rsqr in *.
    pose proof (Rle_0_sqr (Rabs a1)) as E1. pose proof (Rle_0_sqr (Rabs a2)) as E2. pose proof (Rle_0_sqr (Rabs a3)) as E3. unfold Rsqr in *. lra. }
  assert (T' : (Rabs a1 + Rabs a2 + Rabs a3) * (e / 2) <= 2 * A * (e / 2)) by (apply Rmult_le_compat_r; lra).
  assert (EE : 0 <= e * e) by (pose proof (Rle_0_sqr e); assumption). replace ((A + e) * (A + e)) with (A * A + 2 * (A * e) + e * e) by ring. rewrite AA. unfold S. lra.
Qed.

Lemma dist_close : forall p q o e, length p = 3%nat -> length q = 3%nat -> length o = 3%nat -> 0 <= e ->
  (forall i, (i < 3)%nat -> Rabs (nth i p 0 - nth i q 0) <= e / 2) -> dist p o <= dist q o + e.
Proof.
  intros p q o e Lp Lq Lo E H. destruct p as [|p1 [|p2 [|p3 [|]]]]; try discriminate. destruct q as [|q1 [|q2 [|q3 [|]]]]; try discriminate. destruct o as [|o1 [|o2 [|o3 [|]]]]; try discriminate.
  unfold dist. cbn [map2 fold_right].
  replace (p1 - o1) with ((q1 - o1) + (p1 - q1)) by ring. replace (p2 - o2) with ((q2 - o2) + (p2 - q2)) by ring. replace (p3 - o3) with ((q3 - o3) + (p3 - q3)) by ring.
  apply norm_add; [assumption|apply (H 0%nat)|apply (H 1%nat)|apply (H 2%nat)]; lia.
Qed.

Lemma seg_nth : forall o p u i, length o = 3%nat -> length p = 3%nat -> (i < 3)%nat -> nth i (seg o p u) 0 = nth i o 0 + u * (nth i p 0 - nth i o 0).
Proof.
  intros o p u i Lo Lp L. destruct p as [|p1 [|p2 [|p3 [|]]]]; try discriminate. destruct o as [|o1 [|o2 [|o3 [|]]]]; try discriminate.
  destruct i as [|[|[|i]]]; [reflexivity..|lia].
Qed.

Lemma scene_scan : forall (m r : f32) w o cloud pts v, finite r -> 0 < real r -> length o = 3%nat -> length w = 3%nat -> fltb f0 m = true ->
  Forall2 (close r) pts (pc_points cloud) -> scene_says (real m) (real r) w (map real o, pts) v -> says m r w (o, cloud) v.
Proof.
  intros m r w o cloud pts v Fr P Lo Lw M CL S.
  assert (LO : length (map real o) = 3%nat) by now rewrite map_length.
  assert (NQ : forall q f i, close r q f -> (i < 3)%nat -> Rabs (nth i (map real f) 0 - nth i q 0) <= / 16 * real r).
  { intros q f i (_ & Lf & _ & C) L. specialize (C i L). change 0 with (real f0) at 1. rewrite map_nth. exact C. }
  assert (ND : forall q f, close r q f -> dist (map real f) (map real o) <= dist q (map real o) + / 8 * real r /\ dist q (map real o) <= dist (map real f) (map real o) + / 8 * real r).
  { intros q f C. pose proof C as (Lq & Lf & _). assert (LF : length (map real f) = 3%nat) by now rewrite map_length.
    split; apply dist_close; try assumption; try lra; intros i L; pose proof (NQ q f i C L) as K; [|rewrite Rabs_minus_sym]; lra. }
  assert (NS : forall q f u i, close r q f -> 0 <= u <= 1 -> (i < 3)%nat -> Rabs (nth i (seg (map real o) (map real f) u) 0 - nth i (seg (map real o) q u) 0) <= / 16 * real r).
  { intros q f u i C U L. pose proof C as (Lq & Lf & _). assert (LF : length (map real f) = 3%nat) by now rewrite map_length.
    rewrite !seg_nth by assumption. pose proof (NQ q f i C L) as K.
    match goal with |- Rabs ?e <= _ => replace e with (u * (nth i (map real f) 0 - nth i q 0)) by ring end.
    rewrite Rabs_mult, (Rabs_pos_eq u) by lra. apply Rle_trans with (1 * Rabs (nth i (map real f) 0 - nth i q 0)); [|lra]. apply Rmult_le_compat_r; [apply Rabs_pos|lra]. }
  assert (IN : forall x y g, (forall i, (i < 3)%nat -> Rabs (nth i x 0 - nth i y 0) <= / 16 * real r) ->
     (forall i, (i < 3)%nat -> Rabs (nth i y 0 - IZR (nth i w 0%Z) * real r) <= (/ 2 + g) * real r) -> near_world (g + / 16) r w x).
  { intros x y g H K i L. rewrite Lw in L. specialize (H i L). specialize (K i L). apply Rabs_le_inv in H, K. apply Rabs_le. lra. }
  assert (OUT : forall x y g, (forall i, (i < 3)%nat -> Rabs (nth i x 0 - nth i y 0) <= / 16 * real r) -> near_world g r w x ->
     forall i, (i < 3)%nat -> Rabs (nth i y 0 - IZR (nth i w 0%Z) * real r) <= (/ 2 + (g + / 16)) * real r).
  { intros x y g H K i L. specialize (H i L). specialize (K i ltac:(now rewrite Lw)). apply Rabs_le_inv in H, K. apply Rabs_le. lra. }
  unfold says. cbn [fst snd]. destruct v as [[|]|]; cbn [scene_says fst snd] in S.
  - destruct S as (q & Iq & NW & D). destruct (close_in_l _ _ _ _ CL Iq) as (f & If & C). exists f. split; [assumption|]. split.
    + replace (- / 8) with (- (3 / 16) + / 16) by field. apply (IN _ q); [|exact NW]. intros i L. now apply NQ.
    + right. destruct (ND q f C). lra.
  - destruct S as ((q & u & Iq & U & NW & D) & NO). split.
    + destruct (close_in_l _ _ _ _ CL Iq) as (f & If & C). exists f, u. split; [assumption|]. split; [assumption|]. split.
      * replace (- / 8) with (- (3 / 16) + / 16) by field. apply (IN _ (seg (map real o) q u)); [|exact NW]. intros i L. now apply NS.
      * right. destruct (ND q f C) as [K _]. assert (K' : u * dist (map real f) (map real o) <= u * (dist q (map real o) + / 8 * real r)) by (apply Rmult_le_compat_l; lra).
        assert (K2 : u * (/ 8 * real r) <= 1 * (/ 8 * real r)) by (apply Rmult_le_compat_r; lra). rewrite Rmult_plus_distr_l in K'. lra.
    + intros f If N. destruct (close_in_r _ _ _ _ CL If) as (q' & Iq' & C). apply (NO q' Iq'). intros i L. pose proof (OUT _ q' _ (fun i L => NQ q' f i C L) N i L) as K. lra.
  - destruct S as [S|S]; [left|right; now split].
    intros f u If U N. destruct (close_in_r _ _ _ _ CL If) as (q & Iq & C). apply (S q u Iq U). intros i L. pose proof (OUT _ (seg (map real o) q u) _ (fun i L => NS q f u i C U L) N i L) as K. lra.
Qed.

(** ** The recording of a drive *)
Lemma data_all : forall (P : f32 -> Prop) m, matrix_ok m -> (forall p, In p (pc_points m) -> Forall P p) -> Forall P (mdata m).
Proof.
  intros P m O H. rewrite <- (chunks _ (nrows m) (ncols m) (mdata m) O). apply Forall_concat. apply Forall_forall. intros p I. apply H. exact I.
Qed.
Lemma resolution_tenth : / 10 <= real DEFAULT_RESOLUTION <= / 10 + / 100000.
Proof. unfold real, DEFAULT_RESOLUTION. closed_float (f32_lit 1 10). rewrite V. lra. Qed.
Lemma range_sixty : real DEFAULT_MAX_RANGE = 60.
Proof. unfold real, DEFAULT_MAX_RANGE. closed_float (f32_lit 60 1). rewrite V. lra. Qed.
Lemma nth3 : forall x y z i, nth i (list3 (x, y, z)) 0 = match i with 0%nat => x | 1%nat => y | 2%nat => z | _ => 0 end.
Proof. intros x y z [|[|[|[|i]]]]; reflexivity. Qed.
Lemma abs_by_square : forall x y, 0 <= y -> x * x <= y * y -> Rabs x <= y.
Proof. intros x y Y H. apply Rsqr_incr_0_var; [|assumption]. rewrite <- Rsqr_abs. exact H. Qed.

Section Drive.
Context (s : system) (lookup : bytes -> folder) (args : list bytes) (path : bytes) (rec : recording) (vs : list oxt) (ms : list matrix) (scs : list scene).
Hypothesis E : viz_main s lookup args = Ret (Some rec).
Hypothesis Pa : nth_error args 1 = Some path.
Hypothesis D : drive s (lookup path) vs ms.
Hypothesis NE : vs <> [].
Hypothesis TA : trig_accurate (sys_sin s) (sys_cos s).
Hypothesis ME : measured s vs ms.
Hypothesis SS : scenes_of s vs ms scs.

Lemma frame_at : forall k v m, nth_error vs k = Some v -> nth_error ms k = Some m ->
  exists o c, nth_error (origins rec) k = Some o /\ nth_error (clouds rec) k = Some c /\ length o = 3%nat /\ fst (scene_of s vs k v m) = map real o /\
    Forall (sized 200) o /\ matrix_ok c /\ nrows c = 3%nat /\ Forall2 (close DEFAULT_RESOLUTION) (snd (scene_of s vs k v m)) (pc_points c) /\
    forall f i, In f (pc_points c) -> (i < 3)%nat -> Rabs (real (nth i o f0) - real (nth i f f0)) <= 101.
Proof.
  intros k v m Hv Hm. destruct (main_frames s _ _ _ _ _ _ E Pa D) as (_ & _ & F). destruct (F k v m Hv Hm) as [F1 F2].
  destruct (ME k v m Hv Hm) as (A1 & A2 & A3 & SP & PT).
  assert (O : matrix_ok m /\ nrows m = 3%nat). { destruct D as (_ & _ & _ & _ & (n2 & _ & F2')). destruct (Forall2_nth_r _ _ _ _ _ _ _ F2' Hm) as (n & (b & _ & _ & O & N & _)). auto. }
  destruct O as [O N]. pose proof (pc_points_length m O) as LP. rewrite N in LP. rewrite Forall_forall in LP.
  assert (SM : Forall (sized 200) (mdata m)).
  { apply data_all; [assumption|]. intros p Ip. destruct (PT p Ip) as [Fp Dp]. specialize (LP p Ip). destruct p as [|x [|y [|z [|]]]]; try discriminate LP.
    unfold triple, dot3 in Dp. cbn [nth] in Dp. pose proof (Rle_0_sqr (real x)) as Q1. pose proof (Rle_0_sqr (real y)) as Q2. pose proof (Rle_0_sqr (real z)) as Q3. unfold Rsqr in *.
    inversion_clear Fp as [|? ? X Fp']. inversion_clear Fp' as [|? ? Y Fp'']. inversion_clear Fp'' as [|? ? Z _].
    repeat (apply Forall_cons; [split; [assumption|]; apply abs_by_square; lra|]). apply Forall_nil. }
  exists (coords (position s vs k v)), (pc_transform (to_homogeneous F32A (position s vs k v) (rotation s v)) m).
  split; [assumption|]. split; [assumption|].
  assert (LC : length (coords (position s vs k v)) = 3%nat) by (destruct (position s vs k v) as [[? ?] ?]; reflexivity).
  split; [assumption|]. split; [reflexivity|]. split; [assumption|].
  assert (LH : length (to_homogeneous F32A (position s vs k v) (rotation s v)) = S (nrows m)).
  { rewrite N. destruct (position s vs k v) as [[? ?] ?]. destruct (rotation s v) as [[[? ?] ?] ?]. reflexivity. }
  destruct (transform_points _ _ O LH) as (T1 & _ & T3 & _). split; [exact T1|]. split; [exact (eq_trans T3 N)|].
  pose proof resolution_tenth as RT.
  assert (BB : bp (-15) * 200 + bp (-147) <= / 16 * real DEFAULT_RESOLUTION).
  { assert (bp (-147) <= bp (-20)) by (apply bpow_le; lia). change (bp (-15)) with (/ 32768). change (bp (-20)) with (/ 1048576) in H. lra. }
  pose proof (main_placed s _ _ _ _ _ _ 200 k v m _ E Pa D TA Hv Hm A1 A2 A3 ltac:(split; [lra|]; apply Rle_trans with (bp 8); [change (bp 8) with 256; lra|apply bpow_le; lia]) SP SM F2) as PL.
  set (c := pc_transform _ m) in *. set (t := coords (position s vs k v)) in *.
  assert (CL : Forall2 (close DEFAULT_RESOLUTION) (snd (scene_of s vs k v m)) (pc_points c)).
  { unfold scene_of. cbn [snd]. fold t. clear - PL BB. induction PL as [|p q l l' (Lq & Fq & Nq) H IH]; cbn [map]; constructor; [|exact IH].
    destruct (plus3 _ _) as [[x y] z] eqn:EP. split; [reflexivity|]. split; [exact Lq|]. split; [exact Fq|]. intros i L. unfold triple at 1 in Nq. destruct Nq as (N1 & N2 & N3).
    rewrite nth3. destruct i as [|[|[|i]]]; [lra..|lia]. }
  split; [exact CL|]. intros f i If L. destruct (close_in_r _ _ _ _ CL If) as (q & Iq & Lq & Lf & Ff & C). specialize (C i L).
  unfold scene_of in Iq. cbn [snd] in Iq. fold t in Iq. apply in_map_iff in Iq. destruct Iq as (p & <- & Ip). destruct (PT p Ip) as [_ Dp].
  rewrite <- (turned_dot (real (oxt_roll v)) (real (oxt_pitch v)) (real (oxt_yaw v))) in Dp. destruct (turned _ _ _ (triple p)) as [[x y] z]. unfold dot3 in Dp. unfold plus3, triple in C. rewrite nth3 in C.
  pose proof (Rle_0_sqr x) as Q1. pose proof (Rle_0_sqr y) as Q2. pose proof (Rle_0_sqr z) as Q3. unfold Rsqr in *.
  assert (X : Rabs x <= 100) by (apply abs_by_square; lra). assert (Y : Rabs y <= 100) by (apply abs_by_square; lra). assert (Z : Rabs z <= 100) by (apply abs_by_square; lra).
  apply Rabs_le_inv in C, X, Y, Z. apply Rabs_le. destruct i as [|[|[|i]]]; [lra..|lia].
Qed.

Lemma same_length : length vs = length ms /\ length (origins rec) = length vs /\ length (clouds rec) = length vs.
Proof. destruct (main_frames s _ _ _ _ _ _ E Pa D) as (L1 & L2 & _). destruct D as (_ & _ & L & _). auto. Qed.
Lemma files_at : forall k, (k < length vs)%nat -> exists v m, nth_error vs k = Some v /\ nth_error ms k = Some m.
Proof.
  intros k L. destruct same_length as (L1 & _). destruct (nth_error vs k) as [v|] eqn:Ev; [|apply nth_error_None in Ev; lia]. destruct (nth_error ms k) as [m|] eqn:Em; [|apply nth_error_None in Em; lia]. eauto.
Qed.
Lemma scene_at : forall k sc, nth_error scs k = Some sc -> exists o c, nth_error (origins rec) k = Some o /\ nth_error (clouds rec) k = Some c /\ length o = 3%nat /\ fst sc = map real o /\
    Forall (sized 200) o /\ matrix_ok c /\ nrows c = 3%nat /\ Forall2 (close DEFAULT_RESOLUTION) (snd sc) (pc_points c) /\
    forall f i, In f (pc_points c) -> (i < 3)%nat -> Rabs (real (nth i o f0) - real (nth i f f0)) <= 101.
Proof.
  intros k sc H. destruct SS as [LS NS]. assert (L : (k < length vs)%nat) by (rewrite <- LS; apply nth_error_Some; congruence).
  destruct (files_at k L) as (v & m & Hv & Hm). rewrite (NS k v m Hv Hm) in H. injection H as <-. now apply frame_at.
Qed.
Lemma near_data : forall o c, length o = 3%nat -> Forall (sized 200) o -> matrix_ok c -> Forall (fun p => length p = 3%nat) (pc_points c) ->
  (forall f i, In f (pc_points c) -> (i < 3)%nat -> finite (nth i f f0) /\ Rabs (real (nth i o f0) - real (nth i f f0)) <= 101) ->
  Forall (within_cells (2 ^ 14) DEFAULT_RESOLUTION) o /\ Forall (within_cells (2 ^ 14) DEFAULT_RESOLUTION) (mdata c).
Proof.
  intros o c Lo So MO LP H. pose proof resolution_tenth as RT. change (IZR (2 ^ 14)) with 16384. split.
  - eapply Forall_impl; [|exact So]. intros x [F B]. split; [exact F|]. change (IZR (2 ^ 14)) with 16384. lra.
  - apply data_all; [assumption|]. intros f If. rewrite Forall_forall in LP. specialize (LP f If). apply Forall_forall. intros x Hx. apply In_nth with (d := f0) in Hx. destruct Hx as (i & L & <-).
    rewrite LP in L. destruct (H f i If L) as [F B]. split; [exact F|]. change (IZR (2 ^ 14)) with 16384.
    assert (O : sized 200 (nth i o f0)) by (apply Forall_nth_f; [assumption|now rewrite Lo]). destruct O as [_ O]. apply Rabs_le_inv in O, B. apply Rabs_le. lra.
Qed.
Lemma point_facts : forall pts c, nrows c = 3%nat -> matrix_ok c -> Forall2 (close DEFAULT_RESOLUTION) pts (pc_points c) ->
  Forall (fun p => length p = 3%nat) (pc_points c) /\ forall f i, In f (pc_points c) -> (i < 3)%nat -> finite (nth i f f0).
Proof.
  intros pts c N3 MO CL. split.
  - pose proof (pc_points_length c MO) as L. now rewrite N3 in L.
  - intros f i If L. destruct (close_in_r _ _ _ _ CL If) as (q & _ & _ & Lf & Ff & _). apply Forall_nth_f; [assumption|now rewrite Lf].
Qed.

Lemma drive_recording : Forall (scene_clear (real DEFAULT_RESOLUTION)) scs -> recording_ok 3 DEFAULT_RESOLUTION DEFAULT_TILE_SIZE rec.
Proof.
  intro SC. pose proof resolution_tenth as RT. split; [exact (main_recorded s _ _ _ _ _ _ E Pa D NE)|]. split; [exact default_range|]. split; [unfold DEFAULT_TILE_SIZE; lia|].
  assert (RB : bp (-30) <= real DEFAULT_RESOLUTION <= bp 30).
  { split; [apply Rle_trans with (bp (-4)); [apply bpow_le; lia|change (bp (-4)) with (/ 16); lra]|apply Rle_trans with (bp 0); [change (bp 0) with 1; lra|apply bpow_le; lia]]. }
  split; [exact RB|]. apply Forall_forall. intros [o c] I. cbn [fst snd]. apply In_nth_error in I. destruct I as (k & I). destruct same_length as (L1 & L2 & L3). destruct SS as [LS _].
  assert (L : (k < length scs)%nat). { assert (K : (k < length (combine (origins rec) (clouds rec)))%nat) by (apply nth_error_Some; congruence). rewrite combine_length, L2, L3, Nat.min_id in K. lia. }
  destruct (nth_error scs k) as [sc|] eqn:Esc; [|apply nth_error_None in Esc; lia].
  destruct (scene_at k sc Esc) as (o' & c' & Eo & Ec & Lo & Fo & So & MO & N3 & CL & NR).
  rewrite (nth_error_combine _ _ _ _ _ _ _ Eo Ec) in I. injection I as -> ->.
  destruct (point_facts _ _ N3 MO CL) as [LP FP]. destruct (near_data o c Lo So MO LP) as [Wo Wd]; [intros; split; [now apply FP|now apply NR]|].
  apply (frame_clear DEFAULT_RESOLUTION o c (snd sc)); try assumption.
  - rewrite <- Fo. rewrite Forall_forall in SC. destruct sc as [so sp]. apply SC. now apply nth_error_In with k.
  - intros f i If L'. apply Rle_trans with (1 := NR f i If L'). lra.
Qed.

Lemma drive_lowest : lowest_first (real DEFAULT_RESOLUTION) scs -> first_lowest rec.
Proof.
  intros LF c0 c H0 I. pose proof resolution_tenth as RT. apply In_nth_error in I. destruct I as (k & I). destruct same_length as (L1 & L2 & L3). destruct SS as [LS _].
  assert (L : (k < length scs)%nat). { assert (K : (k < length (clouds rec))%nat) by (apply nth_error_Some; congruence). lia. }
  destruct k as [|k]. { rewrite H0 in I. injection I as <-. induction (bmin (pc_bounds c0)); constructor; [lra|assumption]. }
  destruct (nth_error scs (S k)) as [sc|] eqn:Esc; [|apply nth_error_None in Esc; lia]. destruct (nth_error scs 0) as [sc0|] eqn:Esc0; [|apply nth_error_None in Esc0; lia].
  destruct (scene_at _ _ Esc) as (o & c' & _ & Ec & Lo & Fo & So & MO & N3 & CL & NR). rewrite I in Ec. injection Ec as <-.
  destruct (scene_at _ _ Esc0) as (o0 & c0' & _ & Ec0 & Lo0 & Fo0 & So0 & MO0 & N30 & CL0 & NR0). rewrite H0 in Ec0. injection Ec0 as <-.
  destruct (point_facts _ _ N3 MO CL) as [LP FP]. destruct (near_data o c Lo So MO LP) as [_ Wd]; [intros; split; [now apply FP|now apply NR]|].
  destruct (point_facts _ _ N30 MO0 CL0) as [LP0 FP0]. destruct (near_data o0 c0 Lo0 So0 MO0 LP0) as [_ Wd0]; [intros; split; [now apply FP0|now apply NR0]|].
  destruct (lengths c MO N3) as [La Lb]. destruct (lengths c0 MO0 N30) as [La0 Lb0].
  assert (RB : bp (-30) <= real DEFAULT_RESOLUTION <= bp 30).
  { split; [apply Rle_trans with (bp (-4)); [apply bpow_le; lia|change (bp (-4)) with (/ 16); lra]|apply Rle_trans with (bp 0); [change (bp 0) with 1; lra|apply bpow_le; lia]]. }
  destruct (pc_bounds_spec c MO) as (OB & IO & CV & LE & _). rewrite N3 in *.
  assert (SB : sub_box (pc_bounds c) (mkBounds (bmin (pc_bounds c0)) (bmax (pc_bounds c)))).
  { apply LE.
    - split; cbn [bmin bmax]; [|exact (proj2 IO)]. destruct (pc_bounds_spec c0 MO0) as (_ & [I0 _] & _). now rewrite N30 in I0.
    - intros f If. split; cbn [bmin bmax]; [|exact (proj2 (CV f If))]. rewrite Forall_forall in LP. pose proof (LP f If) as Lf.
      apply (Forall2_nth_iff _ f0 f0); [congruence|]. intros i Li. rewrite La0 in Li. right.
      destruct (close_in_r _ _ _ _ CL If) as (q & Iq & _ & _ & _ & C). specialize (C i Li). apply Rabs_le_inv in C.
      destruct (box_finite DEFAULT_RESOLUTION o0 c0 Lo0 MO0 N30 Wd0 i Li) as [FB _]. pose proof (FP f i If Li) as FF. destruct (box_zero DEFAULT_RESOLUTION o0 c0 Lo0 MO0 N30 Wd0 i Li) as [Z0 _].
      apply fleb_iff. split; [now apply is_finite_not_nan|]. split; [now apply is_finite_not_nan|]. rewrite !ext_finite by assumption.
      change (real (nth i (bmin (pc_bounds c0)) f0) <= real (nth i f f0)). destruct (LF k sc0 sc q i Esc0 Esc Iq Li) as [K|(q0 & I0 & K)]; [lra|].
      pose proof (bottom_reach DEFAULT_RESOLUTION o0 c0 (snd sc0) Lo0 MO0 N30 Wd0 CL0 q0 i I0 Li) as BR. lra. }
  destruct SB as [SB _]. cbn [bmin] in SB.
  apply (Forall2_nth_iff _ f0 f0); [congruence|]. intros i Li. apply (proj1 (Forall2_nth_iff _ f0 f0 _ _ (eq_trans La0 (eq_sym La)))) with (i := i) in SB; [|exact Li]. rewrite La0 in Li.
  destruct (box_finite DEFAULT_RESOLUTION o0 c0 Lo0 MO0 N30 Wd0 i Li) as [FB _]. destruct (box_finite DEFAULT_RESOLUTION o c Lo MO N3 Wd i Li) as [FB' _]. now apply fle_real in SB.
Qed.

Lemma drive_says : forall w vals, length w = 3%nat -> Forall2 (scene_says 60 (real DEFAULT_RESOLUTION) w) scs vals ->
  Forall2 (says DEFAULT_MAX_RANGE DEFAULT_RESOLUTION w) (combine (origins rec) (clouds rec)) vals.
Proof.
  intros w vals Lw H. destruct same_length as (L1 & L2 & L3). destruct SS as [LS _]. pose proof resolution_tenth as RT.
  assert (G : forall l l' sl vl, length l = length sl -> length l' = length sl -> Forall2 (scene_says 60 (real DEFAULT_RESOLUTION) w) sl vl ->
    (forall k sc, nth_error sl k = Some sc -> exists o c, nth_error l k = Some o /\ nth_error l' k = Some c /\ length o = 3%nat /\ fst sc = map real o /\ Forall2 (close DEFAULT_RESOLUTION) (snd sc) (pc_points c)) ->
    Forall2 (says DEFAULT_MAX_RANGE DEFAULT_RESOLUTION w) (combine l l') vl).
  { intros l l' sl vl K1 K2 F. revert l l' K1 K2. induction F as [|sc v sl vl Hs F IH]; intros [|o l] [|c l'] K1 K2 K; try discriminate; cbn [combine]; constructor.
    - destruct (K 0%nat sc eq_refl) as (o' & c' & Eo & Ec & Lo & Fo & CL). cbn [nth_error] in Eo, Ec. injection Eo as <-. injection Ec as <-.
      apply (scene_scan DEFAULT_MAX_RANGE DEFAULT_RESOLUTION w o c (snd sc)); try assumption; [exact (proj1 res_tenth)|lra|vm_compute; reflexivity|]. rewrite range_sixty, <- Fo. destruct sc. exact Hs.
    - apply IH; [now injection K1|now injection K2|]. intros k sc' Hk. exact (K (S k) sc' Hk). }
  apply (G _ _ scs); [exact (eq_trans L2 (eq_sym LS))|exact (eq_trans L3 (eq_sym LS))|exact H|]. intros k sc Hk. destruct (scene_at k sc Hk) as (o & c & Eo & Ec & Lo & Fo & _ & _ & _ & CL & _). exists o, c. auto.
Qed.
End Drive.

(** ** Theorems *)
Lemma drive_safe : forall s lookup args path rec vs ms scs lm tr st, viz_main s lookup args = Ret (Some rec) -> nth_error args 1 = Some path -> drive s (lookup path) vs ms ->
  vs <> [] -> trig_accurate (sys_sin s) (sys_cos s) -> measured s vs ms -> scenes_of s vs ms scs -> Forall (scene_clear (real DEFAULT_RESOLUTION)) scs ->
  limit_near (max_range lm) DEFAULT_RESOLUTION -> reaches rec 3 lm DEFAULT_RESOLUTION DEFAULT_TILE_SIZE tr st ->
  existsb panicked (workers st) = false /\ render st <> RPanicked /\
  forall newer w older, workers st = newer ++ w :: older -> alive w = true -> moves rec (Worker (length older)) st.
Proof.
  intros s lookup args path rec vs ms scs lm tr st E Pa D NE TA ME SS SC HM R.
  exact (program_safe rec 3 _ _ lm tr st (drive_recording s lookup args path rec vs ms scs E Pa D NE TA ME SS SC) HM R).
Qed.

Lemma drive_displayed : forall s lookup args path rec vs ms scs ln o st th ev w b vals, viz_main s lookup args = Ret (Some rec) -> nth_error args 1 = Some path -> drive s (lookup path) vs ms ->
  vs <> [] -> trig_accurate (sys_sin s) (sys_cos s) -> measured s vs ms -> scenes_of s vs ms scs -> Forall (scene_clear (real DEFAULT_RESOLUTION)) scs ->
  lowest_first (real DEFAULT_RESOLUTION) scs -> ln_special ln -> ln_monotone ln -> (forall x, fltb f1 x = true -> fltb f0 (ln x) = true) ->
  om_default 3 ln = Ret o -> execution rec o st th ev -> fair rec st th -> length w = 3%nat ->
  Forall2 (scene_says 60 (real DEFAULT_RESOLUTION) w) scs vals -> Forall (fun v => v = None \/ v = Some b) vals -> Exists (fun v => v <> None) vals ->
  exists N, forall n, (N <= n)%nat -> exists cb, covers_cells 3 DEFAULT_RESOLUTION DEFAULT_TILE_SIZE (om_grid (grid (st n))) cb /\ in_box cb w /\
    ((exists p, In (map2 Z.sub w (cmin cb), p) (tracked (st n))) <-> b = true) /\
    (forall p, In (map2 Z.sub w (cmin cb), p) (tracked (st n)) -> near_cell DEFAULT_RESOLUTION w p).
Proof.
  intros s lookup args path rec vs ms scs ln o st th ev w b vals E Pa D NE TA ME SS SC LF S Mo Po EO X Fa Lw Sv Sb Sx.
  apply (displayed_in_program ln rec o st th ev w b vals S Mo Po EO); try assumption.
  - exact (drive_recording s lookup args path rec vs ms scs E Pa D NE TA ME SS SC).
  - exact (drive_lowest s lookup args path rec vs ms scs E Pa D TA ME SS LF).
  - exact (drive_says s lookup args path rec vs ms scs E Pa D TA ME SS w vals Lw Sv).
Qed.
