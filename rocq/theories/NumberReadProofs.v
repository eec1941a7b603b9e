(** Numbers in text files: records and directories. *)
From Coq Require Import ZArith List Bool Reals Lia Lra Strings.Byte.
From Flocq Require Import Core BinarySingleNaN.
From Verif Require Import Base F32 F64 Arith Geom Kitti Spec SpecKitti Number SpecNumber OxtProofs DirProofs GpsProofs NumberProofs NumberRoundProofs.
Open Scope Z_scope.

(** ** Characters *)

Lemma decimal_plain : forall ds n i, decimal n ds = Some i -> Forall plain ds.
Proof.
  induction ds as [|c ds IH]; intros n i H; [constructor|]. cbn [decimal] in H.
  destruct ((48 <=? byte_val c) && (byte_val c <=? 57)) eqn:E; [|discriminate]. apply andb_true_iff in E as [E1 E2].
  apply Z.leb_le in E1, E2. constructor; [right; right; right; left; lia|]. exact (IH _ _ H).
Qed.
Lemma sign_plain : forall sg neg, sign_text sg neg -> Forall plain sg.
Proof. intros sg neg [(-> & _)|[(-> & _)|(-> & _)]]; unfold plain; auto. Qed.
Lemma number_plain : forall s neg v, number_text s neg v -> Forall plain s.
Proof.
  intros s neg v (sg & ds & fs & body & xt & x & i & f & -> & Sg & B & _ & D & F & X & _).
  apply decimal_plain in D, F. apply sign_plain in Sg. rewrite !Forall_app. split; [exact Sg|]. split.
  - destruct B as [(-> & ->)| ->]; [exact D|]. apply Forall_app. split; [exact D|]. constructor; [|exact F]. right; right; now left.
  - destruct X as [(-> & _)|(c & sg' & neg' & ds' & n' & -> & C & Sg' & _ & D' & _)]; [constructor|].
    apply decimal_plain in D'. apply sign_plain in Sg'. constructor; [|now apply Forall_app].
    destruct C as [-> | ->]; unfold plain; cbn; lia.
Qed.
Lemma spells_plain : forall s word, Forall (fun l => 97 <= byte_val l <= 122) word -> spells s word -> Forall plain s.
Proof.
  intros s word L H. induction H as [|c l s word A _ IH]; [constructor|]. inversion L; subst. constructor; [|auto].
  unfold plain. destruct A as [-> |[_ A]]; auto 10.
Qed.

Section Format.
Context (prec emax : Z) {prec_gt_0_ : FLX.Prec_gt_0 prec} {prec_lt_emax_ : Prec_lt_emax prec emax}.
Lemma parse_plain : forall s, parse_float prec emax s <> None -> s <> [] /\ Forall plain s.
Proof.
  intros s H. apply parse_accepts in H as [(neg & v & H)|(sg & neg & w & -> & Sg & H)].
  - split; [|exact (number_plain _ _ _ H)]. intros ->.
    destruct H as (sg & ds & fs & body & xt & x & i & f & E & _ & B & N & _).
    destruct sg; [|discriminate]. destruct B as [(-> & ->)| ->]; [|destruct ds; discriminate].
    rewrite app_nil_r in N. destruct ds; [contradiction|discriminate].
  - destruct word_letters as (L1 & L2 & L3). split.
    + intros E. apply app_eq_nil in E as [_ ->]. destruct H as [H|[H|H]]; inversion H.
    + apply Forall_app. split; [exact (sign_plain _ _ Sg)|].
      destruct H as [H|[H|H]]; [exact (spells_plain _ _ L1 H)|exact (spells_plain _ _ L2 H)|exact (spells_plain _ _ L3 H)].
Qed.

Lemma parse_rejects : forall s c, In c s -> ~ plain c -> parse_float prec emax s = None.
Proof.
  intros s c I N. destruct (parse_float prec emax s) eqn:P; [|reflexivity]. exfalso. apply N.
  destruct (parse_plain s) as [_ F]; [congruence|]. rewrite Forall_forall in F. now apply F.
Qed.
End Format.

(** ** Records *)
Section Record.
Context {Rot : Type} (c : f64 -> f64) (rot : f32 -> f32 -> f32 -> Rot).
Notation env := (std_env c rot).

Lemma std_accepts : forall b origin,
  (exists r, oxt_read env (IoOk b) origin = IoOk r) <->
  is_text b /\ exists fs, fields_of b fs /\ (6 <= length fs)%nat /\
    forall i, (i < 6)%nat ->
      (exists neg v, number_text (nth i fs []) neg v) \/
      (exists sg neg w, nth i fs [] = sg ++ w /\ sign_text sg neg /\
         (spells w text_inf \/ spells w text_infinity \/ spells w text_nan)).
Proof.
  intros b origin. rewrite read_accepts. split.
  - intros (T & fs & F & L & A & B). split; [exact T|]. exists fs. split; [exact F|]. split; [exact L|].
    intros i Hi. destruct (Nat.lt_ge_cases i 3) as [Hi'|Hi'].
    + apply (parse_accepts 53 1024). exact (A i Hi').
    + apply (parse_accepts 24 128). exact (B i (conj Hi' Hi)).
  - intros (T & fs & F & L & A). split; [exact T|]. exists fs. split; [exact F|]. split; [exact L|]. split; intros i Hi.
    + apply (parse_accepts 53 1024). apply A. lia.
    + apply (parse_accepts 24 128). apply A. lia.
Qed.

Lemma std_record : forall b t0 t1 t2 t3 t4 t5 more n0 n1 n2 n3 n4 n5 v0 v1 v2 v3 v4 v5, is_text b ->
  fields_of b (t0 :: t1 :: t2 :: t3 :: t4 :: t5 :: more) ->
  number_text t0 n0 v0 -> number_text t1 n1 v1 -> number_text t2 n2 v2 ->
  number_text t3 n3 v3 -> number_text t4 n4 v4 -> number_text t5 n5 v5 ->
  exists (lat lon alt : f64) (roll pitch yaw : f32),
    rounds_to lat n0 v0 /\ rounds_to lon n1 v1 /\ rounds_to alt n2 v2 /\
    rounds_to roll n3 v3 /\ rounds_to pitch n4 v4 /\ rounds_to yaw n5 v5 /\
    forall origin, oxt_read env (IoOk b) origin =
      IoOk (match origin with
            | Some o => ((gps_to_meters c (lat, lon, alt) o, rot roll pitch yaw), o)
            | None => ((zero_translation, rot roll pitch yaw), (lat, lon, alt))
            end).
Proof.
  intros b t0 t1 t2 t3 t4 t5 more n0 n1 n2 n3 n4 n5 v0 v1 v2 v3 v4 v5 T F H0 H1 H2 H3 H4 H5.
  destruct (parse_reads 53 1024 _ _ _ H0) as (lat & P0 & R0), (parse_reads 53 1024 _ _ _ H1) as (lon & P1 & R1), (parse_reads 53 1024 _ _ _ H2) as (alt & P2 & R2).
  destruct (parse_reads 24 128 _ _ _ H3) as (roll & P3 & R3), (parse_reads 24 128 _ _ _ H4) as (pitch & P4 & R4), (parse_reads 24 128 _ _ _ H5) as (yaw & P5 & R5).
  exists lat, lon, alt, roll, pitch, yaw. do 6 (split; [assumption|]). intros origin.
  apply (record_read env b (lat, lon, alt) (rot roll pitch yaw) origin).
  split; [exact T|]. exists t0, t1, t2, t3, t4, t5, more, lat, lon, alt, roll, pitch, yaw. auto 15.
Qed.

(** A line break right after the sixth number. *)
Lemma newline_rejected : forall b f0 f1 f2 f3 f4 f5 origin, is_text b -> fields_of b [f0; f1; f2; f3; f4; f5 ++ [x0a]] ->
  oxt_read env (IoOk b) origin = IoErr InvalidFloat.
Proof.
  intros b f0 f1 f2 f3 f4 f5 origin T F.
  assert (N : forall r, oxt_read env (IoOk b) origin <> IoOk r).
  { intros r E. destruct (proj1 (read_accepts env b origin) (ex_intro _ r E)) as (_ & fs & F' & _ & _ & B).
    apply fields_unique in F, F'. subst fs. rewrite <- F in B. apply (B 5%nat); [lia|]. cbn [nth].
    apply (parse_rejects 24 128 _ x0a); [apply in_or_app; right; now left|]. unfold plain. vm_compute.
    intros [A|[A|[A|[[A _]|[[A _]|[A _]]]]]]; try discriminate A; now apply A. }
  destruct (oxt_read env (IoOk b) origin) as [r|e] eqn:E; [now contradiction (N r)|].
  apply read_fails in E as [(_ & NT)|(_ & fs & F' & [(_ & L)|(-> & _)])]; [contradiction| |reflexivity].
  apply fields_unique in F, F'. subst fs. rewrite <- F in L. cbn in L. lia.
Qed.

(** ** Accuracy *)
Open Scope R_scope.

Lemma field_reads : forall (s : bytes) v, field_value s v ->
  (exists x, parse_float 24 128 s = Some x) /\
  exists x : f64, parse_float 53 1024 s = Some x /\
   (Rabs v <= bpow radix2 100 -> finite64 x /\ Rabs (real64 x - v) <= bpow radix2 (-53) * Rabs v + bpow radix2 (-1000)).
Proof.
  intros s v (neg & a & H & ->). split.
  - destruct (parse_reads 24 128 s neg a H) as (x & P & _). now exists x.
  - destruct (parse_reads 53 1024 s neg a H) as (x & P & R). exists x. split; [exact P|].
    intros B. assert (A0 := text_nonneg s neg a H).
    assert (Ba : a <= bpow radix2 100).
    { destruct neg; cbn [signed] in B; [rewrite Rabs_Ropp in B|]; now rewrite (Rabs_pos_eq a A0) in B. }
    assert (L : a < bpow radix2 1024 - bpow radix2 (1024 - 53 - 1)).
    { apply Rle_lt_trans with (1 := Ba). assert (bpow radix2 100 <= bpow radix2 970) by (apply bpow_le; lia).
      assert (E : bpow radix2 1024 = bpow radix2 54 * bpow radix2 970) by (rewrite <- bpow_plus; reflexivity).
      change (1024 - 53 - 1)%Z with 970%Z. assert (4 <= bpow radix2 54) by (apply (bpow_le radix2 2); lia).
      pose proof (bpow_gt_0 radix2 970). nra. }
    assert (F : is_finite x = true) by (destruct R as (_ & _ & R & _); exact (proj1 (R L))).
    split; [exact F|]. unfold real64. rewrite (rounds_signed 53 1024 x neg a R F A0). apply rnd64_err.
Qed.

Lemma gives_record : forall b lat lon alt, gives b lat lon alt -> Rabs lat <= 90 -> Rabs alt <= 1000000 ->
  exists (g : gps) r, is_record env b g r /\
    (at_most 1000 (fst (fst g)) /\ Rabs (real64 (fst (fst g)) - lat) <= bpow radix2 (-46)) /\
    (at_most (2 ^ 80) (snd g) /\ Rabs (real64 (snd g) - alt) <= bpow radix2 (-32)).
Proof.
  intros b lat lon alt (T & f0 & f1 & f2 & f3 & f4 & f5 & more & roll & pitch & yaw & F & V0 & V1 & V2 & V3 & V4 & V5) Bl Ba.
  destruct (field_reads f0 lat V0) as (_ & x0 & P0 & A0). destruct (field_reads f1 lon V1) as (_ & x1 & P1 & _).
  destruct (field_reads f2 alt V2) as (_ & x2 & P2 & A2).
  destruct (field_reads f3 roll V3) as ((y3 & P3) & _). destruct (field_reads f4 pitch V4) as ((y4 & P4) & _). destruct (field_reads f5 yaw V5) as ((y5 & P5) & _).
  assert (H100 : 1000000 <= bpow radix2 100) by (apply Rle_trans with (bpow radix2 20); [change (bpow radix2 20) with 1048576; lra|apply bpow_le; lia]).
  destruct (A0 ltac:(lra)) as [F0 E0]. destruct (A2 ltac:(lra)) as [F2 E2].
  assert (Tiny : bpow radix2 (-1000) <= bpow radix2 (-53)) by (apply bpow_le; lia).
  assert (E53 : bpow radix2 (-46) = 128 * bpow radix2 (-53)) by (change 128 with (bpow radix2 7); rewrite <- bpow_plus; reflexivity).
  assert (E32 : bpow radix2 (-32) = 2097152 * bpow radix2 (-53)) by (change 2097152 with (bpow radix2 21); rewrite <- bpow_plus; reflexivity).
  pose proof (bpow_gt_0 radix2 (-53)) as P53.
  assert (S53 : bpow radix2 (-32) <= 1) by (apply (bpow_le radix2 (-32) 0); lia).
  assert (D0 : Rabs (real64 x0 - lat) <= bpow radix2 (-46)) by nra.
  assert (D2 : Rabs (real64 x2 - alt) <= bpow radix2 (-32)) by nra.
  exists (x0, x1, x2), (rot y3 y4 y5). split.
  - split; [exact T|]. exists f0, f1, f2, f3, f4, f5, more, x0, x1, x2, y3, y4, y5. auto 15.
  - cbn [fst snd]. pose proof (abs_chain _ _ _ D0). pose proof (abs_chain _ _ _ D2).
    split; (split; [split; [assumption|]|assumption]).
    + lra.
    + apply Rle_trans with (1000001); [lra|]. apply IZR_le. lia.
Qed.

Lemma north_accurate : forall (p o : gps) lat lat0, at_most 1000 (fst (fst p)) -> at_most 1000 (fst (fst o)) ->
  Rabs (real64 (fst (fst p)) - lat) <= bpow radix2 (-46) -> Rabs (real64 (fst (fst o)) - lat0) <= bpow radix2 (-46) ->
  finite (snd (fst (gps_to_meters c p o))) /\
  Rabs (real (snd (fst (gps_to_meters c p o))) - (lat - lat0) * 40008000 / 360) <=
    bpow radix2 (-23) * Rabs ((lat - lat0) * 40008000 / 360) + bpow radix2 (-27).
Proof.
  intros p o lat lat0 A A' D D'. destruct (north c p o A A') as [F N]. split; [exact F|].
  set (y := real (snd (fst (gps_to_meters c p o)))) in *.
  set (u := real64 (fst (fst p))) in *. set (w := real64 (fst (fst o))) in *.
  assert (E : Rabs ((u - w) * 40008000 / 360 - (lat - lat0) * 40008000 / 360) <= 131072 * (2 * bpow radix2 (-46))).
  { replace ((u - w) * 40008000 / 360 - (lat - lat0) * 40008000 / 360) with (((u - lat) - (w - lat0)) * (40008000 / 360)) by field.
    rewrite Rabs_mult, (Rabs_pos_eq (40008000 / 360)) by lra.
    assert (Rabs (u - lat - (w - lat0)) <= 2 * bpow radix2 (-46)).
    { unfold Rminus at 1. eapply Rle_trans; [apply Rabs_triang|]. rewrite Rabs_Ropp. lra. }
    pose proof (Rabs_pos (u - lat - (w - lat0))). nra. }
  replace (131072 * (2 * bpow radix2 (-46))) with (bpow radix2 (-28)) in E
    by (change 131072 with (bpow radix2 17); change 2 with (bpow radix2 1); rewrite <- !bpow_plus; reflexivity).
  assert (E27 : bpow radix2 (-27) = 2 * bpow radix2 (-28)) by (change 2 with (bpow radix2 1); rewrite <- bpow_plus; reflexivity).
  assert (T : bpow radix2 (-149) <= bpow radix2 (-30)) by (apply bpow_le; lia).
  assert (E30 : bpow radix2 (-28) = 4 * bpow radix2 (-30)) by (change 4 with (bpow radix2 2); rewrite <- bpow_plus; reflexivity).
  set (a := (u - w) * 40008000 / 360) in *. set (b := (lat - lat0) * 40008000 / 360) in *.
  assert (C := abs_add _ _ _ _ _ E N).
  assert (Ab : Rabs a <= Rabs b + bpow radix2 (-28)) by (apply abs_chain; exact E).
  assert (S : bpow radix2 (-23) <= / 8) by (apply (bpow_le radix2 (-23) (-3)); lia).
  pose proof (bpow_gt_0 radix2 (-23)). pose proof (bpow_gt_0 radix2 (-30)). nra.
Qed.

Lemma up_accurate : forall (p o : gps) alt alt0, at_most (2 ^ 80) (snd p) -> at_most (2 ^ 80) (snd o) ->
  Rabs (real64 (snd p) - alt) <= bpow radix2 (-32) -> Rabs (real64 (snd o) - alt0) <= bpow radix2 (-32) ->
  finite (snd (gps_to_meters c p o)) /\
  Rabs (real (snd (gps_to_meters c p o)) - (alt - alt0)) <= bpow radix2 (-23) * Rabs (alt - alt0) + bpow radix2 (-30).
Proof.
  intros p o alt alt0 A A' D D'. destruct (up c p o A A') as [F N]. split; [exact F|].
  set (z := real (snd (gps_to_meters c p o))) in *. set (u := real64 (snd p)) in *. set (w := real64 (snd o)) in *.
  assert (E : Rabs ((u - w) - (alt - alt0)) <= bpow radix2 (-31)).
  { replace (bpow radix2 (-31)) with (2 * bpow radix2 (-32)) by (change 2 with (bpow radix2 1); rewrite <- bpow_plus; reflexivity).
    replace ((u - w) - (alt - alt0)) with ((u - alt) + - (w - alt0)) by ring. eapply Rle_trans; [apply Rabs_triang|]. rewrite Rabs_Ropp. lra. }
  assert (E30 : bpow radix2 (-30) = 2 * bpow radix2 (-31)) by (change 2 with (bpow radix2 1); rewrite <- bpow_plus; reflexivity).
  assert (E31 : bpow radix2 (-31) = 4 * bpow radix2 (-33)) by (change 4 with (bpow radix2 2); rewrite <- bpow_plus; reflexivity).
  assert (T : bpow radix2 (-149) <= bpow radix2 (-33)) by (apply bpow_le; lia).
  set (a := u - w) in *. set (b := alt - alt0) in *.
  assert (C := abs_add _ _ _ _ _ E N).
  assert (Ab : Rabs a <= Rabs b + bpow radix2 (-31)) by (apply abs_chain; exact E).
  assert (S : bpow radix2 (-23) <= / 8) by (apply (bpow_le radix2 (-23) (-3)); lia).
  pose proof (bpow_gt_0 radix2 (-23)). pose proof (bpow_gt_0 radix2 (-33)). nra.
Qed.

Lemma directory_positions : forall d p0 ps lat0 lon0 alt0 rs, seq_files_in_dir d = IoOk (p0 :: ps) ->
  Forall2 (fun p r => exists b, contents d p = IoOk b /\ gives b (fst (fst r)) (snd (fst r)) (snd r))
    (p0 :: ps) ((lat0, lon0, alt0) :: rs) ->
  Forall (fun r => Rabs (fst (fst r)) <= 90 /\ Rabs (snd r) <= 1000000) ((lat0, lon0, alt0) :: rs) ->
  exists rot0 poses, oxt_read_from_dir env d false = (p0 :: ps, Ret (IoOk (((f0, f0, f0), rot0) :: poses))) /\
    Forall2 (fun r pose =>
      let '(x, y, z) := fst pose in
      let north := (fst (fst r) - lat0) * 40008000 / 360 in
      let up := snd r - alt0 in
      finite y /\ Rabs (real y - north) <= bpow radix2 (-23) * Rabs north + bpow radix2 (-27) /\
      finite z /\ Rabs (real z - up) <= bpow radix2 (-23) * Rabs up + bpow radix2 (-30)) rs poses.
Proof.
  intros d p0 ps lat0 lon0 alt0 rs E H B.
  pose (ok := fun (r : R * R * R) (q : gps * Rot) =>
    (at_most 1000 (fst (fst (fst q))) /\ Rabs (real64 (fst (fst (fst q))) - fst (fst r)) <= bpow radix2 (-46)) /\
    (at_most (2 ^ 80) (snd (fst q)) /\ Rabs (real64 (snd (fst q)) - snd r) <= bpow radix2 (-32))).
  assert (Q : exists qs, Forall2 (fun p q => exists b, contents d p = IoOk b /\ is_record env b (fst q) (snd q)) (p0 :: ps) qs /\
     Forall2 ok ((lat0, lon0, alt0) :: rs) qs).
  { clear E. revert B. induction H as [|p r lp lr (b & Cb & G) _ IH]; intros B.
    - exists []. split; constructor.
    - inversion B as [|? ? (B1 & B2) B3]; subst. destruct (IH B3) as (qs & Q1 & Q2).
      destruct (gives_record b _ _ _ G B1 B2) as (g & r' & Rg & K). exists ((g, r') :: qs).
      split; constructor; auto. exists b. auto. }
  destruct Q as (qs & Q1 & Q2). pose proof (oxt_dir_poses env d (p0 :: ps) qs E Q1) as P.
  inversion Q2 as [|? q ? qs' K0 K]; subst. destruct q as [g0 rot0]. rewrite P. eexists rot0, _. split; [reflexivity|].
  clear - K0 K. induction K as [|r q rs qs Kq _ IH]; cbn [map]; constructor; [|exact IH]. cbn [fst].
  destruct K0 as ((K01 & K02) & (K03 & K04)), Kq as ((K1 & K2) & (K3 & K4)). cbn [fst snd] in *.
  pose proof (north_accurate (fst q) g0 _ _ K1 K01 K2 K02) as [N1 N2].
  pose proof (up_accurate (fst q) g0 _ _ K3 K03 K4 K04) as [U1 U2].
  change (cos64 env) with c. destruct (gps_to_meters c (fst q) g0) as [[x y] z]. cbn [fst snd] in *. auto.
Qed.

(** A NaN in the first record. *)
Lemma nan_spreads : forall (p : gps) lon alt, snd (fst (gps_to_meters c p (B754_nan, lon, alt))) = B754_nan.
Proof. intros [[p0 p1] p2] lon alt. cbn [gps_to_meters fst snd]. destruct p0; reflexivity. Qed.

Lemma nan_record : forall b sg neg w f1 f2 f3 f4 f5 more v1 v2 v3 v4 v5, is_text b ->
  fields_of b ((sg ++ w) :: f1 :: f2 :: f3 :: f4 :: f5 :: more) -> sign_text sg neg -> spells w text_nan ->
  field_value f1 v1 -> field_value f2 v2 -> field_value f3 v3 -> field_value f4 v4 -> field_value f5 v5 ->
  exists lon alt r, oxt_read env (IoOk b) None = IoOk ((zero_translation, r), (B754_nan, lon, alt)) /\
    forall b' pose o, oxt_read env (IoOk b') (Some (B754_nan, lon, alt)) = IoOk (pose, o) -> snd (fst (fst pose)) = B754_nan.
Proof.
  intros b sg neg w f1 f2 f3 f4 f5 more v1 v2 v3 v4 v5 T F Sg W V1 V2 V3 V4 V5.
  destruct (field_reads f1 v1 V1) as (_ & x1 & P1 & _). destruct (field_reads f2 v2 V2) as (_ & x2 & P2 & _).
  destruct (field_reads f3 v3 V3) as ((y3 & P3) & _). destruct (field_reads f4 v4 V4) as ((y4 & P4) & _). destruct (field_reads f5 v5 V5) as ((y5 & P5) & _).
  exists x1, x2, (rot y3 y4 y5). split.
  - rewrite (record_read env b (B754_nan, x1, x2) (rot y3 y4 y5) None); [reflexivity|].
    split; [exact T|]. exists (sg ++ w), f1, f2, f3, f4, f5, more, B754_nan, x1, x2, y3, y4, y5.
    assert (P0 := parse_nan 53 1024 sg neg w Sg W). auto 15.
  - intros b' pose o E. destruct (read_record env b' _ _ E) as (g & r & G). rewrite (record_read env b' g r _ G) in E.
    injection E as <- <-. cbn [fst snd]. apply nan_spreads.
Qed.
End Record.
