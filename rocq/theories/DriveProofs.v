(** From the real numbers of a drive to the map. *)
From Coq Require Import ZArith List Bool Reals Lra Lia Permutation.
From Flocq Require Import Core BinarySingleNaN.
From Verif Require Import Base F32 Arith Geom NdArray GridMap RayCaster NoiseModel Spec SpecMap SpecNoise SpecBack SpecMeet SpecNear SpecWorld SpecWall SpecTour SpecOdds SpecFull SpecDrive FloatFacts RoundError NdProofs GeomProofs MapProofs CloudProofs ScanProofs GridProofs ExpandProofs BuiltProofs NoiseProofs OddsProofs Viz SpecViz VizProofs MainProofs ProgramProofs CornerProofs SceneProofs WorldMapProofs WallProofs FullProofs TourProofs Examples.
Open Scope R_scope.

Lemma rounds_le : forall x f y g, rounds_to x f -> rounds_to y g -> x <= y -> real f <= real g.
Proof. intros x f y g [_ E1] [_ E2] L. rewrite E1, E2. apply (rnd_le x y L). Qed.
Lemma rounds_near : forall r x f, bpow radix2 (-30) <= r -> Rabs x <= 16000 * r -> rounds_to x f -> Rabs (real f - x) <= r / 1024.
Proof.
  intros r x f Hr Hx [_ E]. rewrite E. eapply Rle_trans; [apply (rnd_err x)|].
  assert (B : bpow radix2 (-150) <= / 1048576 * r).
  { apply Rle_trans with (bpow radix2 (-20) * bpow radix2 (-30)); [rewrite <- bpow_plus; apply bpow_le; lia|].
    change (/ 1048576) with (bpow radix2 (-20)). apply Rmult_le_compat_l; [apply bpow_ge_0|exact Hr]. }
  pose proof (bpow_gt_0 radix2 (-30)) as P. unfold u32. lra.
Qed.
Lemma forall2_nth : forall (A B : Type) (P : A -> B -> Prop) l l' a b i, Forall2 P l l' -> (i < length l)%nat -> P (nth i l a) (nth i l' b).
Proof.
  intros A B P l l' a b i H. revert i. induction H as [|x y l l' H1 H IH]; intros i L; [cbn in L; lia|]. destruct i as [|i]; [exact H1|]. apply IH. cbn in L. lia.
Qed.
Lemma forall2_left : forall (A B : Type) (P : A -> B -> Prop) l l' x, Forall2 P l l' -> In x l -> exists y, In y l' /\ P x y.
Proof.
  intros A B P l l' x H. induction H as [|a b l l' H1 H IH]; intro I; [destruct I|]. destruct I as [<-|I]; [exists b; split; [now left|exact H1]|].
  destruct (IH I) as (y & I' & P'). exists y. split; [now right|exact P'].
Qed.
Lemma forall2_right : forall (A B : Type) (P : A -> B -> Prop) l l' y, Forall2 P l l' -> In y l' -> exists x, In x l /\ P x y.
Proof.
  intros A B P l l' y H. induction H as [|a b l l' H1 H IH]; intro I; [destruct I|]. destruct I as [<-|I]; [exists a; split; [now left|exact H1]|].
  destruct (IH I) as (x & I' & P'). exists x. split; [now right|exact P'].
Qed.

Lemma data_of_points : forall (P : f32 -> Prop) (m : matrix), matrix_ok m -> (forall p, In p (pc_points m) -> Forall P p) -> Forall P (mdata m).
Proof.
  intros P m MO H. unfold matrix_ok in MO. apply Forall_forall. intros x Hx. destruct (In_nth _ _ f0 Hx) as (n & Ln & <-). rewrite MO in Ln.
  assert (N0 : nrows m <> 0%nat) by (intro E; rewrite E in Ln; cbn in Ln; lia).
  assert (L1 : (n / nrows m < ncols m)%nat) by (apply Nat.div_lt_upper_bound; assumption). pose proof (Nat.mod_upper_bound n (nrows m) N0) as L2. pose proof (Nat.div_mod n (nrows m) N0) as DM.
  assert (I : In (mcol m (n / nrows m)) (pc_points m)) by (unfold pc_points; apply in_map, in_seq; lia).
  specialize (H _ I). rewrite Forall_forall in H. apply H. unfold mcol. rewrite <- (firstn_skipn (n / nrows m * nrows m) (mdata m)) at 1.
  set (a := (n / nrows m * nrows m)%nat) in *. assert (La : (a <= n)%nat) by (unfold a; nia). assert (LL : length (firstn a (mdata m)) = a) by (apply firstn_length_le; rewrite MO; lia).
  rewrite app_nth2 by lia. rewrite LL. rewrite <- (firstn_skipn (nrows m) (skipn a (mdata m))) at 1.
  assert (LF : length (firstn (nrows m) (skipn a (mdata m))) = nrows m) by (apply firstn_length_le; rewrite skipn_length, MO; unfold a; nia).
  rewrite app_nth1 by (rewrite LF; unfold a; nia). apply nth_In. rewrite LF. unfold a. nia.
Qed.

Section Stored.
Context (d : nat) (M : R) (r : f32) (s : exact_scan) (o : point) (cloud : matrix).
Hypothesis Rr : bpow radix2 (-30) <= real r <= bpow radix2 30.
Hypothesis IR : in_reach d M (real r) s.
Hypothesis ST : stored d s (o, cloud).

Lemma dr_pos : 0 < real r.
Proof. pose proof (bpow_gt_0 radix2 (-30)). lra. Qed.
Lemma dr_lengths : length (fst s) = d /\ length o = d /\ length (bmin (pc_bounds cloud)) = d /\ length (bmax (pc_bounds cloud)) = d.
Proof.
  destruct ST as (MO & N & F & _). cbn [fst snd] in *. destruct IR as (L & _). destruct (pc_bounds_spec cloud MO) as ((L1 & L2 & _) & _). rewrite N in *.
  split; [exact L|]. split; [rewrite <- L; symmetry; exact (Forall2_length _ _ _ F)|]. auto.
Qed.
Lemma dr_sensor : forall i, (i < d)%nat -> rounds_to (nth i (fst s) 0) (nth i o f0) /\ Rabs (nth i (fst s) 0) <= 16000 * real r.
Proof.
  intros i L. destruct ST as (_ & _ & F & _). destruct IR as (Ls & B & _). cbn [fst snd] in *. split; [apply forall2_nth; [exact F|now rewrite Ls]|].
  rewrite Forall_forall in B. apply B, nth_In. now rewrite Ls.
Qed.
Lemma dr_point : forall q f, In q (snd s) -> Forall2 rounds_to q f -> forall i, (i < d)%nat -> rounds_to (nth i q 0) (nth i f f0) /\ Rabs (nth i q 0) <= 16000 * real r.
Proof.
  intros q f I F i L. destruct IR as (_ & _ & _ & H). destruct (H q I) as (Lq & B & _). split; [apply forall2_nth; [exact F|now rewrite Lq]|].
  rewrite Forall_forall in B. apply B, nth_In. now rewrite Lq.
Qed.
Lemma dr_near : forall x f, rounds_to x f -> Rabs x <= 16000 * real r -> within_cells (2 ^ 14) r f.
Proof.
  intros x f H B. pose proof (rounds_near (real r) x f (proj1 Rr) B H) as E. split; [exact (proj1 H)|]. change (IZR (2 ^ 14)) with 16384.
  pose proof dr_pos. apply Rabs_le_inv in E, B. apply Rabs_le. lra.
Qed.
Lemma dr_data : Forall (within_cells (2 ^ 14) r) (mdata cloud).
Proof.
  destruct ST as (MO & N & _ & F). cbn [fst snd] in *. apply data_of_points; [exact MO|]. intros p Hp. destruct (forall2_right _ _ _ _ _ _ F Hp) as (q & Iq & Fq).
  destruct IR as (_ & _ & _ & H). destruct (H q Iq) as (_ & B & _). clear - Fq B Rr. induction Fq as [|x y l l' R F IH]; constructor; inversion B; subst; [|now apply IH].
  eapply dr_near; eassumption.
Qed.

Lemma dr_box_finite : forall i, (i < d)%nat -> finite (nth i (bmin (pc_bounds cloud)) f0) /\ finite (nth i (bmax (pc_bounds cloud)) f0).
Proof.
  intros i L. destruct (bounds_pick finite cloud eq_refl) as [B1 B2]; [eapply Forall_impl; [|exact dr_data]; now intros x [F _]|].
  destruct dr_lengths as (_ & _ & L1 & L2). split; apply Forall_nth_f; try assumption; lia.
Qed.
Lemma dr_box_zero : forall i, (i < d)%nat -> real (nth i (bmin (pc_bounds cloud)) f0) <= 0 <= real (nth i (bmax (pc_bounds cloud)) f0).
Proof.
  intros i L. destruct ST as (MO & N & _). cbn [fst snd] in *. destruct (pc_bounds_spec cloud MO) as (_ & (I1 & I2) & _). rewrite N in I1, I2. destruct dr_lengths as (_ & _ & L1 & L2). destruct (dr_box_finite i L) as [F1 F2].
  assert (E : nth i (origin d) f0 = f0) by (unfold origin; apply nth_repeat). assert (LO : length (origin d) = d) by (unfold origin; apply repeat_length).
  apply forall2_nth with (i := i) (a := f0) (b := f0) in I1; [|exact (eq_ind_r (fun n => (i < n)%nat) L L1)]. apply forall2_nth with (i := i) (a := f0) (b := f0) in I2; [|exact (eq_ind_r (fun n => (i < n)%nat) L LO)].
  rewrite E in I1, I2. apply fle_real in I1; [|assumption|reflexivity]. apply fle_real in I2; [|reflexivity|assumption]. exact (conj I1 I2).
Qed.
Lemma dr_box_point : forall q i, In q (snd s) -> (i < d)%nat -> exists f, rounds_to (nth i q 0) f /\
  real (nth i (bmin (pc_bounds cloud)) f0) <= real f <= real (nth i (bmax (pc_bounds cloud)) f0).
Proof.
  intros q i I L. destruct ST as (MO & N & _ & FF). cbn [fst snd] in *. destruct (forall2_left _ _ _ _ _ _ FF I) as (f & If & Fq).
  destruct (dr_point q f I Fq i L) as [R _]. exists (nth i f f0). split; [exact R|].
  destruct (pc_bounds_spec cloud MO) as (_ & _ & C & _). destruct (C f If) as [C1 C2]. destruct dr_lengths as (_ & _ & L1 & L2). destruct (dr_box_finite i L) as [F1 F2].
  assert (Lf : length f = d) by (rewrite <- (Forall2_length _ _ _ Fq); destruct IR as (_ & _ & _ & H); apply (H q I)).
  assert (F : finite (nth i f f0)) by apply R. assert (NN : is_nan (nth i f f0) = false) by (apply is_finite_not_nan; exact F).
  apply forall2_nth with (i := i) (a := f0) (b := f0) in C1; [|exact (eq_ind_r (fun n => (i < n)%nat) L L1)]. apply forall2_nth with (i := i) (a := f0) (b := f0) in C2; [|exact (eq_ind_r (fun n => (i < n)%nat) L Lf)].
  destruct C1 as [C1|C1]; [exfalso; exact (eq_true_false_abs _ C1 NN)|]. destruct C2 as [C2|C2]; [exfalso; exact (eq_true_false_abs _ C2 NN)|].
  apply fle_real in C1; [|assumption|assumption]. apply fle_real in C2; [|assumption|assumption]. exact (conj C1 C2).
Qed.
(** Coordinates with room are safe. *)
Lemma dr_safe : forall i x f, (i < d)%nat -> has_room i (real r) s x -> Rabs x <= 16000 * real r -> rounds_to x f -> axis_safe r f (nth i (bmax (pc_bounds cloud)) f0).
Proof.
  intros i x f L H B R. pose proof dr_pos as P. pose proof (rounds_near (real r) x f (proj1 Rr) B R) as E. apply Rabs_le_inv in E. destruct (dr_box_zero i L) as [_ Z].
  destruct H as [H|[(q & Iq & H)|(k & H1 & H2)]].
  - left. lra.
  - left. destruct (dr_box_point q i Iq L) as (g & Rg & _ & Hg). assert (Bq : Rabs (nth i q 0) <= 16000 * real r).
    { destruct IR as (Ls & _ & _ & H'). destruct (H' q Iq) as (Lq & Bq & _). rewrite Forall_forall in Bq. apply Bq, nth_In. lia. }
    pose proof (rounds_near (real r) _ g (proj1 Rr) Bq Rg) as E'. apply Rabs_le_inv in E'. lra.
  - right. exists k. rewrite <- (proj2 R) in H2. lra.
Qed.

Lemma dr_frame : frame_ok d r o cloud.
Proof.
  pose proof dr_pos as P. destruct dr_lengths as (Ls & Lo & L1 & L2). pose proof ST as (MO & N & FO & FF). cbn [fst snd] in *. pose proof IR as (_ & Bs & HS & HP).
  split; [exact MO|]. split; [exact N|]. split; [exact Lo|]. split; [|split; [exact dr_data|split; [|split]]].
  - clear - FO Bs Rr. induction FO as [|x y l l' R F IH]; constructor; inversion Bs; subst; [|now apply IH]. eapply dr_near; eassumption.
  - split; apply (Forall2_nth_iff _ f0 f0); try congruence; intros i L; assert (Li : (i < d)%nat) by lia; destruct (dr_box_finite i Li) as [F1 F2]; destruct (dr_box_zero i Li) as [Z1 Z2];
      destruct (dr_sensor i Li) as [RS _]; destruct (HS i Li) as (S1 & S2 & _); cbv zeta in S1, S2; pose proof (proj1 RS) as FS; apply fleb_iff; (split; [now apply is_finite_not_nan|]); (split; [now apply is_finite_not_nan|]); rewrite !ext_finite by assumption; change (@B2R 24 128) with real.
    + destruct S1 as [S1|(q & Iq & S1)].
      * apply Rle_trans with (1 := Z1). rewrite (proj2 RS). pose proof (rnd_le _ _ S1) as Q. rewrite rnd_0 in Q. exact Q.
      * destruct (dr_box_point q i Iq Li) as (g & Rg & G1 & _). apply Rle_trans with (1 := G1). exact (rounds_le _ _ _ _ Rg RS S1).
    + destruct S2 as [S2|(q & Iq & S2)].
      * refine (Rle_trans _ _ _ _ Z2). rewrite (proj2 RS). pose proof (rnd_le _ _ S2) as Q. rewrite rnd_0 in Q. exact Q.
      * destruct (dr_box_point q i Iq Li) as (g & Rg & _ & G2). refine (Rle_trans _ _ _ _ G2). exact (rounds_le _ _ _ _ RS Rg S2).
  - apply (Forall2_nth_iff _ f0 f0); [congruence|]. intros i L. assert (Li : (i < d)%nat) by lia. destruct (dr_sensor i Li) as [RS BS]. destruct (HS i Li) as (_ & _ & S3). cbv zeta in S3. exact (dr_safe i _ _ Li S3 BS RS).
  - intros f If. destruct (forall2_right _ _ _ _ _ _ FF If) as (q & Iq & Fq). destruct (HP q Iq) as (Lq & Bq & CS & OB & HD). assert (Lf : length f = d) by (rewrite <- (Forall2_length _ _ _ Fq); exact Lq).
    assert (K : forall i, (i < d)%nat -> rounds_to (nth i q 0) (nth i f f0) /\ Rabs (nth i q 0) <= 16000 * real r /\ rounds_to (nth i (fst s) 0) (nth i o f0) /\
       - (real r / 1024) <= real (nth i f f0) - nth i q 0 <= real r / 1024 /\ - (real r / 1024) <= real (nth i o f0) - nth i (fst s) 0 <= real r / 1024).
    { intros i Li. destruct (dr_sensor i Li) as [RS BS]. destruct (dr_point q f Iq Fq i Li) as [RQ BQ]. repeat (split; [assumption|]).
      split; apply Rabs_le_inv; apply rounds_near; try assumption; exact (proj1 Rr). }
    split; [|split; [|split]].
    + apply (Forall2_nth_iff _ f0 f0); [congruence|]. intros i L. assert (Li : (i < d)%nat) by lia. destruct (K i Li) as (RQ & BQ & _). destruct (HD i Li) as (_ & _ & H3). exact (dr_safe i _ _ Li H3 BQ RQ).
    + apply (Forall2_nth_iff _ f0 f0); [congruence|]. intros i L. assert (Li : (i < d)%nat) by lia. destruct (K i Li) as (RQ & BQ & RS & E1 & E2). destruct (HD i Li) as (H1 & _ & _). cbv zeta in H1.
      destruct H1 as [H1|H1].
      * left. rewrite (proj2 RQ), (proj2 RS). f_equal. lra.
      * right. assert (B : bpow radix2 (-40) <= / 1024) by (change (/ 1024) with (bpow radix2 (-10)); apply bpow_le; lia).
        assert (B' : bpow radix2 (-40) * real r <= / 1024 * real r) by (apply Rmult_le_compat_r; lra). apply Rle_trans with (1 := B').
        revert H1. unfold Rabs. destruct (Rcase_abs _), (Rcase_abs _); intro; lra.
    + apply (Forall2_nth_iff _ f0 f0); [congruence|]. intros i L. assert (Li : (i < d)%nat) by lia. destruct (K i Li) as (_ & _ & _ & E1 & E2). destruct (HD i Li) as (_ & H2 & _). cbv zeta in H2.
      apply Rabs_le_inv in H2. apply Rabs_le. lra.
    + intros i k L _. assert (Li : (i < d)%nat) by lia. destruct (K i Li) as (_ & _ & _ & E1 & _). specialize (OB i k ltac:(lia)). unfold world in OB. rewrite nth_repeat, Rplus_0_l in OB.
      revert OB. unfold Rabs. destruct (Rcase_abs _), (Rcase_abs _); intro; lra.
Qed.
Lemma dr_close : forall l f, Forall2 rounds_to l f -> Forall (fun x => Rabs x <= 16000 * real r) l -> off_by_cells (/ 128) (real r) (map real f) l.
Proof.
  intros l f F. pose proof dr_pos. induction F as [|x y l f R F IH]; intro B; cbn [map]; constructor; inversion B as [|? ? B1 B2]; subst; [|now apply IH].
  eapply Rle_trans; [apply (rounds_near (real r)); [exact (proj1 Rr)|exact B1|exact R]|]. lra.
Qed.
Lemma dr_taken : forall m, real m = M -> taken_at d m r s (o, cloud).
Proof.
  intros m E. pose proof ST as (MO & N & FO & FF). pose proof IR as (_ & Bs & HS & HP). cbn [fst snd] in *. split; cbn [fst snd]; [now apply dr_close|]. rewrite E.
  assert (G : forall l l', Forall2 (Forall2 rounds_to) l l' -> (forall q, In q l -> In q (snd s)) -> Forall2 (fun q p => off_by_cells (/ 128) (real r) (map real p) q /\ clear_segment M (world d) (real r) (fst s) q) l l').
  { intros l l' F. induction F as [|q p l l' F1 F IH]; intro I; constructor; [|apply IH; intros x Hx; apply I; now right].
    destruct (HP q (I q (or_introl eq_refl))) as (_ & B & C & _). split; [now apply dr_close|exact C]. }
  apply G; [exact FF|auto].
Qed.
End Stored.

(** Every such drive can be stored. *)
Section Storing.
Context (d : nat) (r : f32) (Rr : bpow radix2 (-30) <= real r <= bpow radix2 30).
Lemma point_stored : forall l, Forall (fun x => Rabs x <= 16000 * real r) l -> exists f, Forall2 rounds_to l f.
Proof.
  intros l H. induction H as [|x l Hx H (f & F)]; [exists []; constructor|]. destruct (f32_of_real_spec x) as [F1 E1].
  - apply Rle_trans with (1 := Hx). apply Rle_trans with (bpow radix2 14 * bpow radix2 30); [|rewrite <- bpow_plus; apply bpow_le; lia].
    change (bpow radix2 14) with 16384. pose proof (bpow_gt_0 radix2 (-30)). lra.
  - exists (f32_of_real x :: f). constructor; [exact (conj F1 E1)|exact F].
Qed.
Lemma scan_stored : forall M s, in_reach d M (real r) s -> exists f, stored d s f.
Proof.
  intros M s (_ & B & _ & H). destruct (point_stored _ B) as (o & Fo).
  assert (P : exists ps, Forall2 (Forall2 rounds_to) (snd s) ps /\ Forall (fun p => length p = d) ps).
  { induction (snd s) as [|q l IH]; [exists []; split; constructor|]. destruct IH as (ps & F & L); [intros q' Hq; now apply H; right|].
    destruct (H q (or_introl eq_refl)) as (Lq & Bq & _). destruct (point_stored _ Bq) as (p & Fp). exists (p :: ps).
    split; constructor; try assumption. rewrite <- (Forall2_length _ _ _ Fp). exact Lq. }
  destruct P as (ps & F & L). destruct (from_points_points d ps L) as (m' & _ & E & _ & N & MO). exists (o, m'). split; [exact MO|]. split; [exact N|]. split; [exact Fo|]. cbn [snd]. now rewrite E.
Qed.
Lemma drive_stored : forall M S, Forall (in_reach d M (real r)) S -> exists frames, Forall2 (stored d) S frames.
Proof.
  intros M S H. induction H as [|s S Hs H (fs & F)]; [exists []; constructor|]. destruct (scan_stored M s Hs) as (f & Hf). exists (f :: fs). now constructor.
Qed.
End Storing.

Section Drive.
Context (d : nat) (r : f32) (t : Z) (m : lidar).
Context (MR : map_range d r t) (Ht : (t <= 2 ^ 13)%Z) (Rr : bpow radix2 (-30) <= real r <= bpow radix2 30).

Section Any.
Context (M : f32) (LN : limit_near (max_range m) r).
Lemma frames_scanned : forall fuel S fs, (3072 <= fuel)%nat -> driven d M r S fs -> forall o L S0 cb, scanned d r t m o L -> Forall2 (taken_at d M r) S0 L ->
  wf d r t (om_grid o) cb -> cb_near (small t) cb -> exists o' L', map_frames fuel o fs = Ret o' /\ scanned d r t m o' L' /\ Forall2 (taken_at d M r) (S0 ++ S) L'.
Proof.
  intros fuel S fs Fu [IR F]. induction F as [|s [[p c] [of oo]] S fs (St & Of & Oo) F IH]; intros o L S0 cb SC T W NC.
  - exists o, L. split; [reflexivity|]. rewrite app_nil_r. exact (conj SC T).
  - inversion IR as [|? ? I1 I2]; subst. cbn [fst snd] in *. pose proof (dr_frame d _ r s p c Rr I1 St) as FO.
    destruct (integrate_frame d r t m o L cb p c MR Ht Rr LN SC W NC FO fuel of oo Of Oo) as (_ & X & Y).
    destruct (X Fu) as (o1 & E1). destruct (Y o1 E1) as (SC1 & cb1 & W1 & N1).
    destruct (IH I2 o1 (L ++ [(p, c)]) (S0 ++ [s]) cb1 SC1) as (o' & L' & E' & SC' & T'); try assumption.
    + apply Forall2_app; [exact T|]. constructor; [|constructor]. exact (dr_taken d _ r s p c Rr I1 St _ eq_refl).
    + exists o', L'. cbn [map_frames fst snd]. rewrite E1. cbn [obind]. rewrite <- app_assoc in T'. exact (conj E' (conj SC' T')).
Qed.
Lemma map_new : exists o, om_new d m r t = Ret o.
Proof.
  destruct (new_any d r t (bounds_empty d) f0 MR) as (g & E).
  - assert (Z0 : within_cells (2 ^ 18) r f0).
    { split; [reflexivity|]. change (real f0) with 0. rewrite Rabs_R0. pose proof (bpow_gt_0 radix2 (-30)). apply Rmult_le_pos; [apply IZR_le; lia|lra]. }
    unfold bounds_empty, origin. split; [|cbn [bmin bmax]; split; apply repeat_Forall; exact Z0].
    split; [apply repeat_length|]. split; [apply repeat_length|]. cbn [bmin bmax]. clear. induction d; constructor; [reflexivity|assumption].
  - unfold om_new. change default_cell_value with f0. rewrite E. cbn [obind]. now eexists.
Qed.
Lemma drive_scanned : forall fuel S fs, (3072 <= fuel)%nat -> driven d M r S fs -> exists o L, map_drive d m r t fuel fs = Ret o /\ scanned d r t m o L /\ Forall2 (taken_at d M r) S L.
Proof.
  intros fuel S fs Fu D. destruct map_new as (o & E). destruct (prog_initial d r t m o MR E) as [_ (L & cb & SC & _ & LI & W & NC) _].
  destruct L; [|discriminate LI]. destruct (frames_scanned fuel S fs Fu D o [] [] cb SC ltac:(constructor) W NC) as (o' & L' & E' & SC' & T'). exists o', L'. split; [|exact (conj SC' T')]. unfold map_drive. rewrite E. exact E'.
Qed.
End Any.

(** *** Without a limit *)
Lemma full_of_scan : forall M g s o c, scan_ok d r g o c -> taken_at d M r s (o, c) -> full_records d r g s o c.
Proof.
  intros M g s o c (MO & N & Lo & RQ & H) [T1 T2]. cbn [fst snd] in *. split; [exact Lo|]. split; [exact RQ|]. split; [exact T1|].
  intros g1 E. destruct (H g1 E) as [_ B]. pose proof (pc_points_length c MO) as L. rewrite N in L. rewrite Forall_forall in L.
  clear - T2 B L. revert B L. induction T2 as [|q p l l' [A1 (A2 & A3 & A4 & _)] F IH]; intros B L; constructor.
  - destruct (B p (or_introl eq_refl)) as (_ & R & _). split; [apply L; now left|]. auto.
  - apply IH; intros; [apply B|apply L]; now right.
Qed.
Lemma scanned_full : forall M o L, scanned d r t m o L -> forall S, Forall2 (taken_at d M r) S L -> full_recorded d r t m o S.
Proof.
  intros M o L H. induction H as [o E|o L fuel of oo origin cloud o' H IH Hf Ho SK Fu E|o L x H IH|o L H IH]; intros S F.
  - inversion F; subst. now apply full_new.
  - apply Forall2_app_inv_r in F. destruct F as (S1 & S2 & F1 & F2 & ->). inversion F2 as [|s ? l ? T F2']; subst. inversion F2'; subst.
    apply (full_next _ _ _ _ o S1 s fuel of oo origin cloud); auto. now apply (full_of_scan M).
  - apply full_track. now apply IH.
  - apply full_clear. now apply IH.
Qed.
Lemma drive_unlimited : fltb f0 (max_range m) = false -> forall M fuel S fs, (3072 <= fuel)%nat -> driven d M r S fs -> exists o cb, map_drive d m r t fuel fs = Ret o /\ covers_cells d r t (om_grid o) cb /\
  forall w, length w = d -> exists vs, Forall2 (full_verdict d (real r) w) S vs /\ (forall vs', Forall2 (full_verdict d (real r) w) S vs' -> vs' = vs) /\
    world_value (om_grid o) cb f0 w (fold_left (observe m) vs f0) /\ (Exists (fun v => v <> None) vs -> in_box cb w).
Proof.
  intros NL M fuel S fs Fu D. destruct (drive_scanned M (or_introl NL) fuel S fs Fu D) as (o & L & E & SC & T).
  destruct (full_cells d r t m o S MR NL (scanned_full M o L SC S T)) as (cb & C & V). exists o, cb. auto.
Qed.
Lemma drive_unlimited_walls : fltb f0 (max_range m) = false -> signs_ok m -> fle f0 (occupied_threshold_logodds m) -> fltb (occupied_threshold_logodds m) (evidence m f0 true) = true ->
  forall M fuel S fs wall, (3072 <= fuel)%nat -> driven d M r S fs -> Forall (full_sees d (real r) wall) S ->
  exists o cb, map_drive d m r t fuel fs = Ret o /\ covers_cells d r t (om_grid o) cb /\ forall w, length w = d ->
    ((exists s, In s S /\ full_hits d (real r) s w) -> wall w /\ in_box cb w) /\
    (in_box cb w -> exists b, om_occupied o (map2 Z.sub w (cmin cb)) = Ret b /\ (b = true <-> exists s, In s S /\ full_hits d (real r) s w)).
Proof.
  intros NL SG T1 T2 M fuel S fs wall Fu D SE. destruct (drive_scanned M (or_introl NL) fuel S fs Fu D) as (o & L & E & SC & T).
  destruct (full_occupied d r t m o S wall MR NL SG T1 T2 (scanned_full M o L SC S T) SE) as (cb & C & V). exists o, cb. auto.
Qed.

Context (Pm : fltb f0 (max_range m) = true) (Fm : finite (max_range m)) (Bm : real (max_range m) <= 1048576 * real r).
Lemma drive_recorded : forall fuel S fs, (3072 <= fuel)%nat -> driven d (max_range m) r S fs -> exists o, map_drive d m r t fuel fs = Ret o /\ SpecWorld.recorded d r t m o S.
Proof.
  intros fuel S fs Fu D. destruct (drive_scanned (max_range m) (or_intror (conj Fm Bm)) fuel S fs Fu D) as (o & L & E & SC & T). exists o. split; [exact E|exact (scanned_recorded _ _ _ _ _ _ SC _ T)].
Qed.
Lemma drive_values : forall fuel S fs, (3072 <= fuel)%nat -> driven d (max_range m) r S fs -> exists o cb, map_drive d m r t fuel fs = Ret o /\ covers_cells d r t (om_grid o) cb /\
  forall w, length w = d -> exists vs, Forall2 (verdict d (real (max_range m)) (real r) w) S vs /\ (forall vs', Forall2 (verdict d (real (max_range m)) (real r) w) S vs' -> vs' = vs) /\
    world_value (om_grid o) cb f0 w (fold_left (observe m) vs f0) /\ (Exists (fun v => v <> None) vs -> in_box cb w).
Proof.
  intros fuel S fs Fu D. destruct (drive_recorded fuel S fs Fu D) as (o & E & RE). destruct (recorded_cells d r t m o S MR Pm Fm Bm RE) as (cb & C & V). exists o, cb. auto.
Qed.
Lemma drive_walls : signs_ok m -> fle f0 (occupied_threshold_logodds m) -> fltb (occupied_threshold_logodds m) (evidence m f0 true) = true ->
  forall fuel S fs wall, (3072 <= fuel)%nat -> driven d (max_range m) r S fs -> Forall (sees d (real (max_range m)) (real r) wall) S ->
  exists o cb, map_drive d m r t fuel fs = Ret o /\ covers_cells d r t (om_grid o) cb /\ forall w, length w = d ->
    ((exists s, In s S /\ scan_hits d (real (max_range m)) (real r) s w) -> wall w /\ in_box cb w) /\
    (in_box cb w -> exists b, om_occupied o (map2 Z.sub w (cmin cb)) = Ret b /\ (b = true <-> exists s, In s S /\ scan_hits d (real (max_range m)) (real r) s w)).
Proof.
  intros SG T1 T2 fuel S fs wall Fu D SE. destruct (drive_recorded fuel S fs Fu D) as (o & E & RE). destruct (walled_occupied d r t m o S wall MR Pm Fm Bm SG T1 T2 RE SE) as (cb & C & V). exists o, cb. auto.
Qed.
End Drive.

Lemma drive_order : forall d r t t' m, map_range d r t -> map_range d r t' -> (t <= 2 ^ 13)%Z -> (t' <= 2 ^ 13)%Z -> bpow radix2 (-30) <= real r <= bpow radix2 30 ->
  fltb f0 (max_range m) = true -> finite (max_range m) -> real (max_range m) <= 1048576 * real r ->
  forall fuel S S' fs fs' wall, (3072 <= fuel)%nat -> driven d (max_range m) r S fs -> driven d (max_range m) r S' fs' -> Permutation S S' -> Forall (sees d (real (max_range m)) (real r) wall) S ->
  exists o o' cb cb', map_drive d m r t fuel fs = Ret o /\ map_drive d m r t' fuel fs' = Ret o' /\ covers_cells d r t (om_grid o) cb /\ covers_cells d r t' (om_grid o') cb' /\
    forall w, length w = d -> exists v, world_value (om_grid o) cb f0 w v /\ world_value (om_grid o') cb' f0 w v.
Proof.
  intros d r t t' m MR MR' Ht Ht' RB Pm Fm Bm fuel S S' fs fs' wall Fu D D' P SE.
  destruct (drive_recorded d r t m MR Ht RB Fm Bm fuel S fs Fu D) as (o & E & RE). destruct (drive_recorded d r t' m MR' Ht' RB Fm Bm fuel S' fs' Fu D') as (o' & E' & RE').
  destruct (walled_order d r t t' m o o' S S' wall MR MR' Pm Fm Bm RE RE' P SE) as (cb & cb' & C). exists o, o', cb, cb'. auto.
Qed.

(** ** The default numbers *)
Lemma drive_default : forall f, ln_accurate f -> exists m, lidar_default f = Ret m /\ max_range m = DEFAULT_MAX_RANGE /\
  forall d fuel S fs wall, (d = 2 \/ d = 3)%nat -> (3072 <= fuel)%nat -> driven d DEFAULT_MAX_RANGE DEFAULT_RESOLUTION S fs ->
  Forall (sees d (real DEFAULT_MAX_RANGE) (real DEFAULT_RESOLUTION) wall) S ->
  exists o cb, (do o0 <- om_default d f ; map_frames fuel o0 fs) = Ret o /\ covers_cells d DEFAULT_RESOLUTION DEFAULT_TILE_SIZE (om_grid o) cb /\ forall w, length w = d ->
    ((exists s, In s S /\ scan_hits d (real DEFAULT_MAX_RANGE) (real DEFAULT_RESOLUTION) s w) -> wall w /\ in_box cb w) /\
    (in_box cb w -> exists b, om_occupied o (map2 Z.sub w (cmin cb)) = Ret b /\ (b = true <-> exists s, In s S /\ scan_hits d (real DEFAULT_MAX_RANGE) (real DEFAULT_RESOLUTION) s w)).
Proof.
  intros f A. destruct (walled_default f A) as (m & E & R & (SG & T1 & T2) & _). exists m. split; [exact E|]. split; [exact R|].
  intros d fuel S fs wall Hd Fu D SE. pose proof resolution_tenth as RT. pose proof default_range as (_ & HR & HT).
  assert (RB : bpow radix2 (-30) <= real DEFAULT_RESOLUTION <= bpow radix2 30).
  { split; [apply Rle_trans with (bpow radix2 (-4)); [apply bpow_le; lia|change (bpow radix2 (-4)) with (/ 16); lra]|apply Rle_trans with (bpow radix2 0); [change (bpow radix2 0) with 1; lra|apply bpow_le; lia]]. }
  assert (F : fltb f0 DEFAULT_MAX_RANGE = true /\ is_finite DEFAULT_MAX_RANGE = true) by (split; vm_compute; reflexivity). destruct F as [F1 F2].
  rewrite <- R in D, SE, F1, F2 |- *. unfold om_default. rewrite E. cbn [obind].
  apply (drive_walls d DEFAULT_RESOLUTION DEFAULT_TILE_SIZE m); try assumption.
  - exact (conj Hd (conj HR HT)).
  - unfold DEFAULT_TILE_SIZE. lia.
  - rewrite R, range_sixty. lra.
Qed.
Lemma drive_changed : forall f, ln_accurate f -> exists m, lidar_default f = Ret m /\ max_range m = DEFAULT_MAX_RANGE /\
  forall d r t fuel S0 S1 fs wall, map_range d r t -> (t <= 2 ^ 13)%Z -> bpow radix2 (-30) <= real r <= bpow radix2 30 -> real DEFAULT_MAX_RANGE <= 1048576 * real r ->
  (3072 <= fuel)%nat -> driven d DEFAULT_MAX_RANGE r (S0 ++ S1) fs -> Forall (sees d (real DEFAULT_MAX_RANGE) (real r) wall) S1 ->
  exists o cb, map_drive d m r t fuel fs = Ret o /\ covers_cells d r t (om_grid o) cb /\ forall w vs, length w = d -> Forall2 (verdict d (real DEFAULT_MAX_RANGE) (real r) w) S1 vs ->
    (~ wall w -> (9 <= seen false vs)%nat -> in_box cb w /\ om_occupied o (map2 Z.sub w (cmin cb)) = Ret false) /\
    (wall w -> (3 <= seen true vs)%nat -> in_box cb w /\ om_occupied o (map2 Z.sub w (cmin cb)) = Ret true).
Proof.
  intros f A. destruct (walled_default f A) as (m & E & R & _ & W). exists m. split; [exact E|]. split; [exact R|].
  intros d r t fuel S0 S1 fs wall MR Ht RB Bm Fu D SE.
  assert (RE : exists o, map_drive d m r t fuel fs = Ret o /\ SpecWorld.recorded d r t m o (S0 ++ S1)) by (apply drive_recorded; rewrite ?R; try assumption; reflexivity).
  destruct RE as (o & Eo & RE). destruct (W d r t o S0 S1 wall MR Bm RE SE) as (cb & C). exists o, cb. auto.
Qed.
