(** Numbers in text files: the grammar and the value. *)
From Coq Require Import ZArith List Bool Reals Lia Lra Strings.Byte.
From Flocq Require Import Core BinarySingleNaN.
From Verif Require Import Base F32 F64 Kitti SpecKitti Number SpecNumber OxtProofs.
Open Scope Z_scope.

Lemma decimal_from : forall ds n m i, decimal n ds = Some i ->
  decimal m ds = Some (i + (m - n) * 10 ^ Z.of_nat (length ds)).
Proof.
  induction ds as [|c ds IH]; intros n m i H.
  - cbn in *. f_equal. injection H as <-. lia.
  - cbn [decimal] in *. destruct (_ && _); [|discriminate]. rewrite (IH _ (10 * m + (byte_val c - 48)) _ H). f_equal.
    cbn [length]. rewrite Nat2Z.inj_succ, Z.pow_succ_r by lia. lia.
Qed.

Lemma decimal_nonneg : forall ds n i, 0 <= n -> decimal n ds = Some i -> 0 <= i.
Proof.
  induction ds as [|c ds IH]; intros n i Hn H; cbn [decimal] in H.
  - injection H as <-. exact Hn.
  - destruct (48 <=? byte_val c) eqn:E; cbn in H; [|discriminate]. destruct (byte_val c <=? 57); [|discriminate].
    apply Z.leb_le in E. apply (IH (10 * n + (byte_val c - 48)) i); [lia|exact H].
Qed.

Definition stops (r : bytes) : Prop := match r with [] => True | c :: _ => is_digit c = false end.

Lemma parse_digits_app : forall ds r n k i, decimal n ds = Some i -> stops r ->
  parse_digits n k (ds ++ r) = (i, (k + length ds)%nat, r).
Proof.
  induction ds as [|c ds IH]; intros r n k i H S.
  - cbn in *. injection H as <-. rewrite Nat.add_0_r. destruct r as [|c r]; [reflexivity|]. cbn in S |- *. now rewrite S.
  - cbn [decimal app parse_digits] in *. unfold is_digit. destruct (_ && _); [|discriminate].
    rewrite (IH _ _ _ _ H S). cbn [length]. now rewrite <- Nat.add_succ_comm.
Qed.

Lemma parse_digits_split : forall s n k, exists ds i r, s = ds ++ r /\ decimal n ds = Some i /\ stops r /\
  parse_digits n k s = (i, (k + length ds)%nat, r).
Proof.
  induction s as [|c s IH]; intros n k.
  - exists [], n, []. cbn. now rewrite Nat.add_0_r.
  - cbn [parse_digits]. destruct (is_digit c) eqn:E.
    + destruct (IH (10 * n + (byte_val c - 48)) (S k)) as (ds & i & r & -> & D & S & P).
      exists (c :: ds), i, r. cbn [decimal length app]. unfold is_digit in E. rewrite E, <- Nat.add_succ_comm. auto.
    + exists [], n, (c :: s). cbn. rewrite Nat.add_0_r. auto.
Qed.

Lemma digit_not : forall c, is_digit c = true -> c <> x2b /\ c <> x2d /\ c <> x2e /\ c <> x65 /\ c <> x45.
Proof. intros c H. repeat split; intros ->; discriminate. Qed.

(** Signs. *)
Definition unsigned (r : bytes) : Prop := match r with [] => True | c :: _ => c <> x2b /\ c <> x2d end.

Lemma parse_sign_app : forall sg neg r, sign_text sg neg -> unsigned r -> parse_sign (sg ++ r) = (neg, r).
Proof.
  intros sg neg r [(-> & ->)|[(-> & ->)|(-> & ->)]] U; [|reflexivity|reflexivity].
  destruct r as [|c r]; [reflexivity|]. destruct U as [A B]. cbn. destruct c; try reflexivity; now (contradiction A || contradiction B).
Qed.

Lemma parse_sign_split : forall s, exists sg, sign_text sg (fst (parse_sign s)) /\ s = sg ++ snd (parse_sign s).
Proof.
  intros [|c s].
  - exists []. split; [now left|reflexivity].
  - destruct (Byte.byte_eq_dec c x2d) as [->|N1]; [|destruct (Byte.byte_eq_dec c x2b) as [->|N2]].
    + exists [x2d]. split; [right; right; auto|reflexivity].
    + exists [x2b]. split; [right; left; auto|reflexivity].
    + assert (E : parse_sign (c :: s) = (false, c :: s)) by (apply (parse_sign_app [] false (c :: s)); [now left|now split]).
      rewrite E. exists []. split; [now left|reflexivity].
Qed.

Lemma digits_unsigned : forall ds i r, ds <> [] -> decimal 0 ds = Some i -> unsigned (ds ++ r).
Proof.
  intros [|c ds] i r N D; [contradiction|]. cbn [decimal] in D. destruct (_ && _) eqn:E in D; [|discriminate].
  destruct (digit_not c E) as (A & B & _). now split.
Qed.

Lemma byte_eqb_true : forall a b, Byte.eqb a b = true <-> a = b.
Proof. intros a b. split; [apply Byte.byte_dec_bl|apply Byte.byte_dec_lb]. Qed.

(** Exponents. *)
Lemma parse_exponent_iff : forall s x, parse_exponent s = Some x <->
  exists sg neg ds n, s = sg ++ ds /\ sign_text sg neg /\ ds <> [] /\ decimal 0 ds = Some n /\ x = (if neg then - n else n).
Proof.
  intros s x. unfold parse_exponent. split.
  - intros H. destruct (parse_sign_split s) as (sg & Sg & Es). destruct (parse_sign s) as [neg s1]. cbn [fst snd] in *.
    destruct (parse_digits_split s1 0 0) as (ds & i & r & -> & D & St & P). rewrite P in H.
    destruct (0 + length ds)%nat eqn:L; [discriminate|]. destruct r; [|discriminate]. injection H as <-.
    rewrite app_nil_r in Es. exists sg, neg, ds, i. repeat split; try assumption. intros ->. discriminate.
  - intros (sg & neg & ds & n & -> & Sg & N & D & ->).
    rewrite (parse_sign_app sg neg ds Sg); [|generalize (digits_unsigned ds n [] N D); now rewrite app_nil_r].
    pose proof (parse_digits_app ds [] 0 0 n D I) as P. rewrite app_nil_r in P. rewrite P.
    destruct ds; [contradiction|reflexivity].
Qed.

Lemma exponent_stops : forall xt x, exponent_text xt x -> stops xt /\ (forall c r, xt = c :: r -> c = x65 \/ c = x45).
Proof.
  intros xt x [(-> & _)|(c & sg & neg & ds & n & -> & C & _)]; [split; [exact I|discriminate]|].
  split; [destruct C as [-> | ->]; reflexivity|]. intros c' r [= <- _]. exact C.
Qed.

(** What comes after the digits. *)
Definition parse_tail (n : Z) (k1 : nat) (s2 : bytes) : option (Z * Z) :=
  match s2 with
  | [] => Some (n, - Z.of_nat k1)
  | c :: s3 =>
      if Byte.eqb c x65 || Byte.eqb c x45 then
        match parse_exponent s3 with
        | Some x => Some (n, x - Z.of_nat k1)
        | None => None
        end
      else None
  end.

Lemma parse_tail_iff : forall n k s m e, parse_tail n k s = Some (m, e) <->
  exists x, exponent_text s x /\ m = n /\ e = x - Z.of_nat k.
Proof.
  intros n k s m e. unfold parse_tail. split.
  - destruct s as [|c s].
    + intros [= <- <-]. exists 0. split; [now left|]. split; [reflexivity|lia].
    + destruct (Byte.eqb c x65 || Byte.eqb c x45) eqn:E; [|discriminate].
      destruct (parse_exponent s) as [x|] eqn:P; [|discriminate]. intros [= <- <-]. exists x. split; [|auto].
      right. apply parse_exponent_iff in P as (sg & neg & ds & v & -> & Sg & N & D & ->).
      exists c, sg, neg, ds, v. apply orb_true_iff in E. rewrite !byte_eqb_true in E. auto 10.
  - intros (x & [(-> & ->)|(c & sg & neg & ds & v & -> & C & Sg & N & D & X)] & -> & ->).
    + do 2 f_equal.
    + replace (Byte.eqb c x65 || Byte.eqb c x45) with true by (destruct C as [-> | ->]; reflexivity).
      assert (P : parse_exponent (sg ++ ds) = Some x) by (apply parse_exponent_iff; exists sg, neg, ds, v; auto).
      now rewrite P.
Qed.

Lemma parse_number_unfold : forall s, parse_number s =
  let '(n0, k0, s1) := parse_digits 0 0 s in
  let '(n, k1, s2) := match s1 with x2e :: s1' => parse_digits n0 0 s1' | _ => (n0, O, s1) end in
  if Nat.eqb (k0 + k1) 0 then None else parse_tail n k1 s2.
Proof. reflexivity. Qed.

Lemma no_point : forall (n0 : Z) s1, (forall r, s1 <> x2e :: r) ->
  match s1 with x2e :: s1' => parse_digits n0 0 s1' | _ => (n0, O, s1) end = (n0, O, s1).
Proof. intros n0 [|c s1] H; [reflexivity|]. destruct c; try reflexivity. now contradiction (H s1). Qed.

(** The unsigned number m * 10^e. *)
Lemma parse_number_iff : forall s m e, parse_number s = Some (m, e) <->
  exists ds fs body xt x i f, s = body ++ xt /\ ((body = ds /\ fs = []) \/ body = ds ++ x2e :: fs) /\ ds ++ fs <> [] /\
    decimal 0 ds = Some i /\ decimal 0 fs = Some f /\ exponent_text xt x /\
    m = i * 10 ^ Z.of_nat (length fs) + f /\ e = x - Z.of_nat (length fs).
Proof.
  intros s m e. rewrite parse_number_unfold. split.
  - intros H. destruct (parse_digits_split s 0 0) as (ds & i & r & -> & D & St & P). rewrite P in H. clear P.
    destruct (list_eq_dec Byte.byte_eq_dec (firstn 1 r) [x2e]) as [E|E].
    + destruct r as [|c r]; [discriminate|]. cbn [firstn] in E. injection E as ->.
      destruct (parse_digits_split r i 0) as (fs & j & r' & -> & D' & St' & P'). rewrite P' in H.
      destruct (Nat.eqb_spec (0 + length ds + (0 + length fs)) 0) as [Z0|Z0]; [discriminate|].
      apply parse_tail_iff in H as (x & X & -> & ->).
      assert (D0 := decimal_from fs i 0 j D').
      exists ds, fs, (ds ++ x2e :: fs), r', x, i, (j + (0 - i) * 10 ^ Z.of_nat (length fs)).
      split; [now rewrite <- app_assoc|]. split; [now right|]. split; [intros A; apply (f_equal (@length _)) in A; rewrite app_length in A; cbn in A; lia|].
      repeat split; try assumption. lia.
    + rewrite no_point in H by (intros r' ->; now apply E).
      destruct (Nat.eqb_spec (0 + length ds + 0) 0) as [Z0|Z0]; [discriminate|].
      apply parse_tail_iff in H as (x & X & -> & ->).
      exists ds, [], ds, r, x, i, 0. split; [reflexivity|]. split; [now left|]. split; [intros A; rewrite app_nil_r in A; now subst|].
      repeat split; try assumption. cbn. lia.
  - intros (ds & fs & body & xt & x & i & f & -> & B & N & D & F & X & -> & ->).
    destruct (exponent_stops xt x X) as [St Hd]. destruct B as [(-> & ->)| ->].
    + rewrite (parse_digits_app ds xt 0 0 i D St). rewrite no_point by (intros r ->; destruct (Hd _ _ eq_refl); discriminate).
      rewrite app_nil_r in N. destruct (Nat.eqb_spec (0 + length ds + 0) 0) as [Z0|Z0]; [destruct ds; [contradiction|discriminate]|].
      apply parse_tail_iff. exists x. split; [exact X|]. cbn in F |- *. injection F as <-. split; lia.
    + rewrite <- app_assoc. cbn [app]. rewrite (parse_digits_app ds (x2e :: fs ++ xt) 0 0 i D) by reflexivity.
      rewrite (parse_digits_app fs xt i 0 _ (decimal_from fs 0 i f F) St).
      destruct (Nat.eqb_spec (0 + length ds + (0 + length fs)) 0) as [Z0|Z0].
      { contradiction N. destruct ds; [|discriminate]. now destruct fs. }
      apply parse_tail_iff. exists x. split; [exact X|]. split; [lia|reflexivity].
Qed.

Lemma number_unsigned : forall s m e, parse_number s = Some (m, e) -> unsigned s.
Proof.
  intros s m e H. apply parse_number_iff in H as (ds & fs & body & xt & x & i & f & -> & B & N & D & F & _).
  destruct ds as [|c ds].
  - destruct B as [(-> & ->)| ->]; [contradiction|]. cbn. split; discriminate.
  - destruct B as [(-> & ->)| ->]; [|rewrite <- app_assoc]; apply (digits_unsigned (c :: ds) i); easy.
Qed.

Lemma parse_number_nonneg : forall s m e, parse_number s = Some (m, e) -> 0 <= m.
Proof.
  intros s m e H. apply parse_number_iff in H as (ds & fs & body & xt & x & i & f & _ & _ & _ & D & F & _ & -> & _).
  apply decimal_nonneg in D, F; lia.
Qed.

(** As the specification has it. *)
Lemma value_eq : forall i f k x,
  ((IZR i + IZR f / 10 ^ k) * powerRZ 10 x = IZR (i * 10 ^ Z.of_nat k + f) * powerRZ 10 (x - Z.of_nat k))%R.
Proof.
  intros i f k x. unfold Z.sub. rewrite powerRZ_add by lra. rewrite plus_IZR, mult_IZR.
  rewrite <- (pow_IZR 10 k), powerRZ_neg', <- pow_powerRZ. field. apply pow_nonzero. lra.
Qed.

Lemma number_text_iff : forall s neg v, number_text s neg v <->
  exists m e, neg = fst (parse_sign s) /\ parse_number (snd (parse_sign s)) = Some (m, e) /\ v = (IZR m * powerRZ 10 e)%R.
Proof.
  intros s neg v. split.
  - intros (sg & ds & fs & body & xt & x & i & f & -> & Sg & B & N & D & F & X & ->).
    assert (P : parse_number (body ++ xt) = Some (i * 10 ^ Z.of_nat (length fs) + f, x - Z.of_nat (length fs)))
      by (apply parse_number_iff; exists ds, fs, body, xt, x, i, f; auto 10).
    rewrite (parse_sign_app sg neg _ Sg (number_unsigned _ _ _ P)). cbn [fst snd].
    eexists _, _. split; [reflexivity|]. split; [exact P|]. apply value_eq.
  - intros (m & e & -> & P & ->). destruct (parse_sign_split s) as (sg & Sg & Es).
    apply parse_number_iff in P as (ds & fs & body & xt & x & i & f & E & B & N & D & F & X & -> & ->).
    exists sg, ds, fs, body, xt, x, i, f. rewrite <- E, value_eq. auto 10.
Qed.

Lemma text_unique : forall s neg v neg' v', number_text s neg v -> number_text s neg' v' -> neg = neg' /\ v = v'.
Proof.
  intros s neg v neg' v' H H'. apply number_text_iff in H as (m & e & -> & P & ->), H' as (m' & e' & -> & P' & ->).
  rewrite P in P'. injection P' as <- <-. auto.
Qed.

(** Words. *)
Lemma lower_iff : forall c l, (97 <= byte_val l <= 122) ->
  (to_ascii_lowercase c = l <-> c = l \/ (byte_val l = byte_val c + 32 /\ 65 <= byte_val c <= 90)).
Proof.
  intros c l Hl. unfold to_ascii_lowercase. destruct ((65 <=? byte_val c) && (byte_val c <=? 90)) eqn:E.
  - apply andb_true_iff in E as [E1 E2]. apply Z.leb_le in E1, E2.
    destruct (Byte.of_N (Byte.to_N c + 32)) as [l'|] eqn:O.
    + apply Byte.to_of_N in O. assert (V : byte_val l' = byte_val c + 32) by (unfold byte_val in *; lia).
      split.
      * intros <-. right. auto.
      * intros [-> |[A _]]; [lia|]. apply byte_val_inj. lia.
    + apply Byte.of_N_None_iff in O. unfold byte_val in *. lia.
  - split; [now left|]. intros [-> |[_ A]]; [reflexivity|]. apply andb_false_iff in E as [E|E]; apply Z.leb_gt in E; lia.
Qed.

Lemma spells_iff : forall word s, Forall (fun l => 97 <= byte_val l <= 122) word ->
  (eq_ignore_case s word = true <-> spells s word).
Proof.
  intros word s H. unfold eq_ignore_case, spells.
  assert (G : map to_ascii_lowercase s = word <-> Forall2 (fun c l => c = l \/ (byte_val l = byte_val c + 32 /\ 65 <= byte_val c <= 90)) s word).
  { revert s. induction H as [|l word Hl _ IH]; intros [|c s]; cbn; split; intros A; try discriminate; try (inversion A; fail); auto.
    - injection A as A B. constructor; [now apply lower_iff|now apply IH].
    - inversion A as [|? ? ? ? A' B]; subst. f_equal; [now apply lower_iff|now apply IH]. }
  rewrite <- G. destruct (list_eq_dec _ _ _); split; easy.
Qed.

Lemma word_letters : Forall (fun l => 97 <= byte_val l <= 122) text_inf /\
  Forall (fun l => 97 <= byte_val l <= 122) text_infinity /\ Forall (fun l => 97 <= byte_val l <= 122) text_nan.
Proof. repeat split; repeat constructor; cbn; lia. Qed.
