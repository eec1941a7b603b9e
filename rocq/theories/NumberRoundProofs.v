(** Numbers in text files: rounding. *)
From Coq Require Import ZArith List Bool Reals Lia Lra Strings.Byte.
From Flocq Require Import Core BinarySingleNaN.
From Verif Require Import Base F32 F64 Kitti SpecKitti Number SpecNumber OxtProofs NumberProofs.
Open Scope Z_scope.

Section Format.
Context (prec emax : Z) {prec_gt_0_ : FLX.Prec_gt_0 prec} {prec_lt_emax_ : Prec_lt_emax prec emax}.
Notation fexp := (FLT_exp (3 - emax - prec) prec).
Notation rnd := (round radix2 fexp ZnearestE).
Notation big := (bpow radix2 emax - bpow radix2 (emax - prec - 1))%R.

Lemma prec_pos : 0 < prec.
Proof. exact prec_gt_0_. Qed.
Lemma prec_small : prec < emax.
Proof. exact prec_lt_emax_. Qed.

Lemma tie_up : ZnearestE (IZR (2 ^ prec) - / 2) = 2 ^ prec.
Proof.
  pose proof prec_pos as Hp.
  assert (F : Zfloor (IZR (2 ^ prec) - / 2) = 2 ^ prec - 1).
  { apply Zfloor_imp. rewrite plus_IZR, minus_IZR. split; lra. }
  unfold Znearest. rewrite F, minus_IZR, Rcompare_Eq by lra.
  replace (Z.even (2 ^ prec - 1)) with false.
  - cbn. apply Zceil_imp. rewrite minus_IZR. split; lra.
  - symmetry. rewrite Z.even_sub, Z.even_pow by lia. reflexivity.
Qed.

(** When a number is too large. *)
Lemma overflow_iff : forall v, (0 <= v)%R -> (rnd v < bpow radix2 emax <-> v < big)%R.
Proof.
  intros v Hv. pose proof prec_pos as Hp. pose proof prec_small as Hs.
  assert (Half : (bpow radix2 (emax - 1) <= big /\ big < bpow radix2 emax)%R).
  { pose proof (bpow_gt_0 radix2 (emax - prec - 1)). split; [|lra].
    assert (bpow radix2 (emax - prec - 1) <= bpow radix2 (emax - 1))%R by (apply bpow_le; lia).
    assert (E : bpow radix2 emax = (2 * bpow radix2 (emax - 1))%R).
    { replace emax with (1 + (emax - 1)) at 1 by ring. rewrite bpow_plus. reflexivity. }
    lra. }
  destruct (Rlt_le_dec v (bpow radix2 (emax - 1))) as [L|L].
  { split; intros _; [lra|]. apply Rle_lt_trans with (bpow radix2 (emax - 1)); [|apply bpow_lt; lia].
    apply round_le_generic; [typeclasses eauto|typeclasses eauto| |lra]. apply generic_format_bpow. unfold FLT_exp. lia. }
  destruct (Rlt_le_dec v (bpow radix2 emax)) as [U|U].
  2:{ split; intros A; [|lra]. exfalso. apply Rlt_not_le in A. apply A.
      apply round_ge_generic; [typeclasses eauto|typeclasses eauto| |exact U]. apply generic_format_bpow. unfold FLT_exp. lia. }
  assert (M : mag radix2 v = emax :> Z) by (apply mag_unique; rewrite Rabs_pos_eq by exact Hv; now split).
  assert (C : cexp radix2 fexp v = emax - prec) by (unfold cexp; rewrite M; unfold FLT_exp; lia).
  unfold round, F2R, scaled_mantissa. cbn [Fnum Fexp]. rewrite C.
  set (s := (v * bpow radix2 (- (emax - prec)))%R).
  assert (P2 : IZR (2 ^ prec) = bpow radix2 prec) by (rewrite <- (IZR_Zpower radix2) by lia; reflexivity).
  assert (Pos : (0 < bpow radix2 (emax - prec))%R) by apply bpow_gt_0.
  assert (Ee : bpow radix2 emax = (IZR (2 ^ prec) * bpow radix2 (emax - prec))%R).
  { rewrite P2, <- bpow_plus. f_equal. ring. }
  assert (Eh : bpow radix2 (emax - prec - 1) = (/ 2 * bpow radix2 (emax - prec))%R).
  { replace (emax - prec - 1) with (-1 + (emax - prec)) by ring. rewrite bpow_plus. reflexivity. }
  assert (Ev : v = (s * bpow radix2 (emax - prec))%R).
  { unfold s. rewrite Rmult_assoc, <- bpow_plus. replace (- (emax - prec) + (emax - prec)) with 0 by ring. cbn. ring. }
  assert (Es : (v < big <-> s < IZR (2 ^ prec) - / 2)%R).
  { rewrite Ee, Eh, Ev. replace (IZR (2 ^ prec) * bpow radix2 (emax - prec) - / 2 * bpow radix2 (emax - prec))%R
      with ((IZR (2 ^ prec) - / 2) * bpow radix2 (emax - prec))%R by ring.
    split; intros A; [exact (Rmult_lt_reg_r _ _ _ Pos A)|exact (Rmult_lt_compat_r _ _ _ Pos A)]. }
  assert (Us : (s < IZR (2 ^ prec))%R).
  { apply (Rmult_lt_reg_r _ _ _ Pos). rewrite <- Ev, <- Ee. exact U. }
  assert (En : (IZR (ZnearestE s) * bpow radix2 (emax - prec) < bpow radix2 emax <-> (ZnearestE s < 2 ^ prec)%Z)%R).
  { rewrite Ee. split; intros A.
    - apply lt_IZR. exact (Rmult_lt_reg_r _ _ _ Pos A).
    - apply Rmult_lt_compat_r; [exact Pos|]. now apply IZR_lt. }
  rewrite En, Es. clear - Us prec_gt_0_. split; intros A.
  - apply Rnot_le_lt. intros B. destruct B as [B|B].
    + rewrite (Znearest_imp _ s (2 ^ prec)) in A; [lia|]. apply Rabs_def1; lra.
    + rewrite <- B, tie_up in A. lia.
  - apply lt_IZR. pose proof (Znearest_half (fun x => negb (Z.even x)) s) as H. apply Rabs_le_inv in H. lra.
Qed.

Lemma quotient_rounds : forall neg n d, rounds_to (quotient prec emax neg n d) neg (IZR (Zpos n) / IZR (Zpos d)).
Proof.
  intros neg n d. unfold quotient. set (aux := Bdiv_correct_aux prec emax _ _ mode_NE neg n 0 false d 0).
  pose proof aux as [V C]. fold (@fexp) in C.
  set (v := (IZR (Zpos n) / IZR (Zpos d))%R).
  assert (Hd : (0 < IZR (Zpos d))%R) by (now apply IZR_lt). assert (Hn : (0 < IZR (Zpos n))%R) by (now apply IZR_lt).
  assert (Hv : (0 < v)%R) by (apply Rdiv_lt_0_compat; assumption).
  assert (Ex : (F2R (Float radix2 (cond_Zopp neg (Zpos n)) 0) / F2R (Float radix2 (cond_Zopp false (Zpos d)) 0) = if neg then - v else v)%R).
  { unfold F2R, v. cbn [Fnum Fexp bpow cond_Zopp]. rewrite !Rmult_1_r. destruct neg; [|reflexivity]. cbn [cond_Zopp].
    rewrite opp_IZR. field. lra. }
  rewrite Ex in C. clear Ex. unfold SpecFloat.fexp in C. change (SpecFloat.emin prec emax) with (3 - emax - prec) in C.
  cbn [round_mode] in C.
  assert (R : round radix2 fexp ZnearestE (if neg then - v else v) = (if neg then - rnd v else rnd v)%R)
    by (destruct neg; [apply round_NE_opp|reflexivity]).
  assert (A0 : (0 <= rnd v)%R) by (apply round_ge_generic; [typeclasses eauto|typeclasses eauto|apply generic_format_0|lra]).
  assert (A : Rabs (if neg then - rnd v else rnd v) = rnd v) by (destruct neg; [rewrite Rabs_Ropp|]; now apply Rabs_pos_eq).
  change (Z.max (Z.sub ?a prec) (3 - emax - prec)) with (fexp a) in C.
  change (round radix2 _ ZnearestE (if neg then (- v)%R else v)) with (round radix2 fexp ZnearestE (if neg then (- v)%R else v)) in C.
  rewrite R, A in C.
  generalize (proj1 aux). clear aux. revert V C.
  generalize (let '(mz, ez, lz) := SpecFloat.SFdiv_core_binary prec emax (Zpos n) 0 (Zpos d) 0 in
              binary_round_aux prec emax mode_NE (xorb neg false) mz ez lz).
  intros z V C V'. rewrite xorb_false_r in C. unfold rounds_to. rewrite B2R_SF2B, is_finite_SF2B, Bsign_SF2B, is_nan_SF2B.
  destruct (Rlt_bool_spec (rnd v) (bpow radix2 emax)) as [B|B].
  - destruct C as (C1 & C2 & C3). split; [exact C3|]. split; [now destruct z|].
    split; [auto|]. intros L. apply overflow_iff in B; lra.
  - subst z. split; [reflexivity|]. split; [reflexivity|]. split; [|reflexivity].
    intros L. apply overflow_iff in L; lra.
Qed.

Lemma rnd_0 : rnd 0 = 0%R.
Proof. apply round_0. typeclasses eauto. Qed.
Lemma big_pos : (0 < big)%R.
Proof. assert (bpow radix2 (emax - prec - 1) < bpow radix2 emax)%R by (apply bpow_lt; pose proof prec_pos; lia). lra. Qed.

Lemma zero_rounds : forall neg, rounds_to (B754_zero neg : binary_float prec emax) neg 0.
Proof.
  intros neg. split; [reflexivity|]. split; [reflexivity|]. rewrite rnd_0. pose proof big_pos.
  split; [|intros A; lra]. intros _. split; [reflexivity|]. cbn. destruct neg; ring.
Qed.

Lemma pow_power : forall q, IZR (Zpos (Pos.pow 10 q)) = powerRZ 10 (Zpos q).
Proof. intros q. rewrite Pos2Z.inj_pow. cbn [powerRZ]. rewrite (pow_IZR 10). now rewrite positive_nat_Z. Qed.

Lemma decimal_rounds : forall neg m e, 0 <= m -> rounds_to (round_decimal prec emax neg m e) neg (IZR m * powerRZ 10 e).
Proof.
  intros neg [|p|p] e Hm; [|clear Hm|lia].
  - rewrite Rmult_0_l. apply zero_rounds.
  - destruct e as [|q|q]; cbn [round_decimal].
    + replace (IZR (Zpos p) * powerRZ 10 0)%R with (IZR (Zpos p) / IZR (Zpos 1))%R by (cbn [powerRZ]; field). apply quotient_rounds.
    + rewrite <- pow_power, <- mult_IZR. change (Zpos p * Zpos (10 ^ q)) with (Zpos (p * 10 ^ q)).
      replace (IZR (Zpos (p * 10 ^ q))) with (IZR (Zpos (p * 10 ^ q)) / IZR (Zpos 1))%R by field. apply quotient_rounds.
    + change (Zneg q) with (- Zpos q). rewrite powerRZ_neg', <- pow_power. apply quotient_rounds.
Qed.

Lemma parse_reads : forall s neg v, number_text s neg v ->
  exists x, parse_float prec emax s = Some x /\ rounds_to x neg v.
Proof.
  intros s neg v H. apply number_text_iff in H as (m & e & -> & P & ->). unfold parse_float.
  destruct (parse_sign s) as [neg s1]. cbn [fst snd] in *. rewrite P. eexists. split; [reflexivity|].
  apply decimal_rounds. exact (parse_number_nonneg _ _ _ P).
Qed.

(** The words. *)
Lemma digit_small : forall c, is_digit c = true -> byte_val c <= 57.
Proof. intros c H. apply andb_true_iff in H as [_ H]. now apply Z.leb_le in H. Qed.
Lemma not_number : forall c s, 57 < byte_val c -> parse_number (c :: s) = None.
Proof.
  intros c s H. destruct (parse_number (c :: s)) as [[m e]|] eqn:P; [|reflexivity]. exfalso.
  apply parse_number_iff in P as (ds & fs & body & xt & x & i & f & E & B & N & D & _).
  destruct ds as [|d ds].
  - destruct B as [(-> & ->)| ->]; [contradiction|]. injection E as -> _. vm_compute in H. discriminate.
  - assert (c = d) as -> by (destruct B as [(-> & ->)| ->]; now injection E).
    cbn [decimal] in D. destruct (_ && _) eqn:E' in D; [|discriminate]. apply digit_small in E'. lia.
Qed.
Lemma spells_length : forall s word, spells s word -> length s = length word.
Proof. intros s word H. induction H; cbn; congruence. Qed.
Lemma spells_head : forall s l word, spells s (l :: word) -> 97 <= byte_val l <= 122 ->
  exists c s', s = c :: s' /\ 57 < byte_val c /\ c <> x2b /\ c <> x2d.
Proof.
  intros s l word H Hl. inversion H as [|c l' s' word' A B]; subst. exists c, s'.
  assert (57 < byte_val c) by (destruct A as [-> |]; lia).
  repeat split; try assumption; intros ->; now vm_compute in H0.
Qed.
Lemma spells_word : forall s sg neg l word, spells s (l :: word) -> 97 <= byte_val l <= 122 -> sign_text sg neg ->
  parse_sign (sg ++ s) = (neg, s) /\ parse_number s = None.
Proof.
  intros s sg neg l word H Hl Sg. destruct (spells_head s l word H Hl) as (c & s' & -> & B & N1 & N2). split.
  - apply parse_sign_app; [exact Sg|now split].
  - now apply not_number.
Qed.

Lemma parse_inf : forall sg neg w, sign_text sg neg -> spells w text_inf \/ spells w text_infinity ->
  parse_float prec emax (sg ++ w) = Some (B754_infinity neg).
Proof.
  intros sg neg w Sg H. destruct word_letters as (L1 & L2 & _). unfold parse_float.
  assert (P : parse_sign (sg ++ w) = (neg, w) /\ parse_number w = None)
    by (destruct H as [H|H]; (eapply spells_word; [exact H|now inversion L1|exact Sg])).
  destruct P as [-> ->]. replace (eq_ignore_case w word_inf || eq_ignore_case w word_infinity) with true; [reflexivity|].
  symmetry. apply orb_true_iff. destruct H as [H|H]; [left|right]; now apply spells_iff.
Qed.
Lemma parse_nan : forall sg neg w, sign_text sg neg -> spells w text_nan ->
  parse_float prec emax (sg ++ w) = Some B754_nan.
Proof.
  intros sg neg w Sg H. destruct word_letters as (L1 & L2 & L3). unfold parse_float.
  assert (P : parse_sign (sg ++ w) = (neg, w) /\ parse_number w = None)
    by (eapply spells_word; [exact H|now inversion L3|exact Sg]).
  destruct P as [-> ->].
  assert (Len := spells_length _ _ H).
  destruct (eq_ignore_case w word_inf || eq_ignore_case w word_infinity) eqn:E.
  - exfalso. apply orb_true_iff in E as [E|E]; apply spells_iff in E; try assumption.
    + inversion H as [|c ? ? ? A]; subst. inversion E as [|? ? ? ? A']; subst. clear - A A'.
      assert (V : byte_val c = 110 \/ byte_val c = 78)
        by (destruct A as [-> |[A _]]; [left; reflexivity|right; change (byte_val x6e) with 110 in A; lia]).
      assert (V' : byte_val c = 105 \/ byte_val c = 73)
        by (destruct A' as [-> |[A' _]]; [left; reflexivity|right; change (byte_val x69) with 105 in A'; lia]).
      lia.
    + apply spells_length in E. rewrite Len in E. discriminate.
  - apply spells_iff in H; [|exact L3]. change word_nan with text_nan. now rewrite H.
Qed.

Lemma parse_accepts : forall s, parse_float prec emax s <> None <->
  (exists neg v, number_text s neg v) \/
  (exists sg neg w, s = sg ++ w /\ sign_text sg neg /\ (spells w text_inf \/ spells w text_infinity \/ spells w text_nan)).
Proof.
  intros s. split.
  - intros H. destruct (parse_sign_split s) as (sg & Sg & Es). unfold parse_float in H.
    destruct (parse_number (snd (parse_sign s))) as [[m e]|] eqn:P.
    + left. exists (fst (parse_sign s)), (IZR m * powerRZ 10 e)%R. apply number_text_iff. exists m, e. auto.
    + right. destruct (parse_sign s) as [neg w]. cbn [fst snd] in *. rewrite P in H. exists sg, neg, w.
      split; [exact Es|]. split; [exact Sg|]. destruct word_letters as (L1 & L2 & L3).
      destruct (eq_ignore_case w word_inf) eqn:E1; [left; now apply spells_iff|].
      destruct (eq_ignore_case w word_infinity) eqn:E2; [right; left; now apply spells_iff|].
      destruct (eq_ignore_case w word_nan) eqn:E3; [right; right; now apply spells_iff|]. now contradiction H.
  - intros [(neg & v & H)|(sg & neg & w & -> & Sg & H)].
    + apply parse_reads in H as (x & -> & _). discriminate.
    + destruct H as [H|[H|H]]; [rewrite (parse_inf sg neg w); auto|rewrite (parse_inf sg neg w); auto|rewrite (parse_nan sg neg w); auto]; discriminate.
Qed.

(** Consequences of rounding. *)
Lemma rounds_signed : forall (x : binary_float prec emax) neg v, rounds_to x neg v -> is_finite x = true ->
  (0 <= v)%R -> B2R x = rnd (signed neg v).
Proof.
  intros x neg v (S & N & A & B) F Hv. destruct (Rlt_le_dec v big) as [L|L].
  - destruct (A L) as [_ ->]. destruct neg; cbn [signed]; [now rewrite round_NE_opp|reflexivity].
  - rewrite (B L) in F. discriminate.
Qed.

Lemma text_nonneg : forall s neg v, number_text s neg v -> (0 <= v)%R.
Proof.
  intros s neg v H. apply number_text_iff in H as (m & e & _ & P & ->). apply parse_number_nonneg in P.
  apply Rmult_le_pos; [now apply IZR_le|]. apply powerRZ_le. lra.
Qed.

Lemma closest : forall s neg v (x : binary_float prec emax), number_text s neg v -> parse_float prec emax s = Some x -> is_finite x = true ->
  forall y : binary_float prec emax, (Rabs (B2R x - signed neg v) <= Rabs (B2R y - signed neg v))%R.
Proof.
  intros s neg v x H P F y. destruct (parse_reads s neg v H) as (x' & P' & R). rewrite P in P'. injection P' as <-.
  rewrite (rounds_signed x neg v R F (text_nonneg _ _ _ H)).
  apply (round_N_pt radix2 fexp). apply generic_format_B2R.
Qed.

Lemma rounds_monotone : forall (x y : binary_float prec emax) neg v neg' v', rounds_to x neg v -> rounds_to y neg' v' ->
  (0 <= v)%R -> (0 <= v')%R -> (signed neg v <= signed neg' v')%R -> Bleb x y = true.
Proof.
  intros x y neg v neg' v' R R' Hv Hv' L.
  pose proof big_pos as BP.
  destruct (Rlt_le_dec v big) as [A|A].
  - destruct (proj1 (proj2 (proj2 R)) A) as [F _]. destruct (Rlt_le_dec v' big) as [A'|A'].
    + destruct (proj1 (proj2 (proj2 R')) A') as [F' _]. rewrite Bleb_correct by assumption. apply Rle_bool_true.
      rewrite (rounds_signed x neg v), (rounds_signed y neg' v') by assumption. apply round_le; [typeclasses eauto|typeclasses eauto|exact L].
    + destruct R' as (_ & _ & _ & I). rewrite (I A'). destruct neg'; [|now destruct x].
      exfalso. destruct neg; cbn in L; lra.
  - destruct R as (_ & _ & _ & I). rewrite (I A). destruct neg.
    + destruct R' as (_ & N & _). now destruct y as [| [] | | []].
    + destruct (Rlt_le_dec v' big) as [A'|A'].
      * exfalso. destruct neg'; cbn in L; lra.
      * destruct R' as (_ & _ & _ & I'). rewrite (I' A'). destruct neg'; [cbn in L; lra|reflexivity].
Qed.

Lemma monotone : forall s s' neg neg' v v', number_text s neg v -> number_text s' neg' v' -> (signed neg v <= signed neg' v')%R ->
  exists x y, parse_float prec emax s = Some x /\ parse_float prec emax s' = Some y /\ Bleb x y = true.
Proof.
  intros s s' neg neg' v v' H H' L. destruct (parse_reads _ _ _ H) as (x & P & R), (parse_reads _ _ _ H') as (y & P' & R').
  exists x, y. split; [exact P|]. split; [exact P'|]. apply (rounds_monotone x y neg v neg' v' R R'); try assumption; eapply text_nonneg; eassumption.
Qed.

(** Enough digits give the number back. *)
Lemma round_back : forall r v, generic_format radix2 fexp r -> (bpow radix2 (2 - emax) <= r)%R ->
  (Rabs (v - r) < bpow radix2 (- prec - 1) * r)%R -> rnd v = r.
Proof.
  intros r v G N A. pose proof prec_pos as Hp. pose proof prec_small as Hs.
  assert (R0 : (0 < r)%R) by (apply Rlt_le_trans with (2 := N); apply bpow_gt_0).
  assert (He := bpow_mag_le radix2 r ltac:(lra)). assert (He' := bpow_mag_gt radix2 r). rewrite Rabs_pos_eq in He, He' by lra.
  remember (mag radix2 r : Z) as e eqn:Me. symmetry in Me.
  assert (Ee : 2 - emax < e) by (apply (lt_bpow radix2); lra).
  assert (U : ulp radix2 fexp r = bpow radix2 (e - prec)).
  { rewrite ulp_neq_0 by lra. unfold cexp. rewrite Me. f_equal. unfold FLT_exp. lia. }
  assert (Half : forall z, (/ 2 * bpow radix2 z = bpow radix2 (z - 1))%R).
  { intros z. replace (z - 1) with (-1 + z) by ring. rewrite bpow_plus. reflexivity. }
  assert (UB : (bpow radix2 (- prec - 1) * r <= bpow radix2 (e - prec - 1))%R).
  { replace (e - prec - 1) with (- prec - 1 + e) by ring. rewrite bpow_plus. apply Rmult_le_compat_l; [apply bpow_ge_0|lra]. }
  apply Rabs_def2 in A as [A1 A2].
  apply Rle_antisym.
  - apply round_N_le_midp; [typeclasses eauto|exact G|]. rewrite succ_eq_pos by lra. rewrite U.
    pose proof (Half (e - prec)). lra.
  - apply round_N_ge_midp; [typeclasses eauto|exact G|]. rewrite pred_eq_pos by lra. unfold pred_pos. rewrite Me.
    destruct (Req_bool_spec r (bpow radix2 (e - 1))) as [E|E].
    + assert (Fe : (bpow radix2 (e - 1 - prec) <= bpow radix2 (fexp (e - 1)))%R) by (apply bpow_le; unfold FLT_exp; lia).
      pose proof (Half (e - 1 - prec)) as Hh.
      assert (Er : (bpow radix2 (- prec - 1) * r = bpow radix2 (e - 1 - prec - 1))%R).
      { rewrite E, <- bpow_plus. f_equal. ring. }
      lra.
    + rewrite U. pose proof (Half (e - prec)). lra.
Qed.

Lemma read_back : forall (x : binary_float prec emax) s neg v, is_finite x = true -> (bpow radix2 (2 - emax) <= Rabs (B2R x))%R ->
  number_text s neg v -> (Rabs (signed neg v - B2R x) < bpow radix2 (- prec - 1) * Rabs (B2R x))%R ->
  parse_float prec emax s = Some x.
Proof.
  intros x s neg v F N H A. destruct (parse_reads s neg v H) as (y & P & R). rewrite P. f_equal.
  assert (Hv := text_nonneg _ _ _ H). pose proof prec_pos as Hp. pose proof prec_small as Hs.
  assert (X0 : (0 < Rabs (B2R x))%R) by (apply Rlt_le_trans with (2 := N); apply bpow_gt_0).
  assert (Small : (bpow radix2 (- prec - 1) * Rabs (B2R x) < Rabs (B2R x))%R).
  { rewrite <- (Rmult_1_l (Rabs (B2R x))) at 2. apply Rmult_lt_compat_r; [exact X0|]. change 1%R with (bpow radix2 0). apply bpow_lt. lia. }
  assert (Sx : Bsign x = neg).
  { destruct x as [s0|s0| |s0 m e B]; try discriminate; try (cbn in X0; rewrite Rabs_R0 in X0; lra).
    cbn [Bsign]. assert (Q : (if s0 then B2R (B754_finite s0 m e B) < 0 else 0 < B2R (B754_finite s0 m e B))%R)
      by (destruct s0; [now apply F2R_lt_0|now apply F2R_gt_0]).
    destruct s0, neg; try reflexivity; exfalso; cbn [signed] in A.
    - rewrite (Rabs_left (B2R _) Q) in *. apply Rabs_def2 in A as [A1 A2]. lra.
    - rewrite (Rabs_pos_eq (B2R _) (Rlt_le _ _ Q)) in *. apply Rabs_def2 in A as [A1 A2]. lra. }
  assert (V : rnd v = Rabs (B2R x)).
  { apply round_back; [apply generic_format_abs, generic_format_B2R|exact N|].
    apply Rle_lt_trans with (2 := A). rewrite <- (Rabs_pos_eq v Hv) at 1.
    replace (Rabs v) with (Rabs (signed neg v)) by (destruct neg; [apply Rabs_Ropp|reflexivity]). apply Rabs_triang_inv2. }
  assert (L : (v < big)%R) by (apply overflow_iff; [exact Hv|]; rewrite V; apply abs_B2R_lt_emax).
  destruct R as (S & Nn & R & _). destruct (R L) as [Fy Vy].
  apply B2R_Bsign_inj; [exact Fy|exact F| |congruence]. rewrite Vy, V, <- Sx.
  clear - F. destruct x as [s0|s0| |s0 m e B]; try discriminate; cbn [Bsign].
  - cbn. rewrite Rabs_R0. destruct s0; ring.
  - destruct s0.
    + rewrite Rabs_left by now apply F2R_lt_0. ring.
    + rewrite Rabs_pos_eq; [reflexivity|]. left. now apply F2R_gt_0.
Qed.
End Format.
