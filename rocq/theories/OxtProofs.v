(** Proofs about text records: UTF-8, fields, acceptance. *)
From Coq Require Import ZArith List Bool Lia Strings.Byte.
From Flocq Require Import Core BinarySingleNaN.
From Verif Require Import Base F32 F64 Arith Geom Kitti Spec SpecKitti KittiProofs.
Open Scope Z_scope.

(** ** UTF-8 *)
Lemma between_spec : forall lo hi b, between_b lo hi b = true <-> lo <= b <= hi.
Proof. intros lo hi b. unfold between_b. rewrite andb_true_iff, !Z.leb_le. lia. Qed.

(** One scalar value read from the front. *)
Lemma decode2 : forall b0 b1, 194 <= b0 <= 223 -> 128 <= b1 <= 191 ->
  exists c, scalar c /\ utf8_encode c = [b0; b1].
Proof.
  intros b0 b1 H0 H1. exists ((b0 - 192) * 64 + (b1 - 128)). split; [unfold scalar; lia|].
  unfold utf8_encode. change (2^6) with 64.
  destruct (Z.ltb_spec ((b0 - 192) * 64 + (b1 - 128)) 0x80); [lia|].
  destruct (Z.ltb_spec ((b0 - 192) * 64 + (b1 - 128)) 0x800); [|lia].
  f_equal; [|f_equal]; Z.div_mod_to_equations; lia.
Qed.

Lemma decode3 : forall b0 b1 b2, 224 <= b0 <= 239 -> 128 <= b1 <= 191 -> 128 <= b2 <= 191 ->
  (b0 = 224 -> 160 <= b1) -> (b0 = 237 -> b1 <= 159) ->
  exists c, scalar c /\ utf8_encode c = [b0; b1; b2].
Proof.
  intros b0 b1 b2 H0 H1 H2 Ha Hb. exists ((b0 - 224) * 4096 + (b1 - 128) * 64 + (b2 - 128)).
  set (c := (b0 - 224) * 4096 + (b1 - 128) * 64 + (b2 - 128)).
  assert (Hc : 0x800 <= c < 0x10000) by (unfold c; lia).
  split; [unfold scalar, c; lia|].
  unfold utf8_encode. change (2^6) with 64. change (2^12) with 4096.
  destruct (Z.ltb_spec c 0x80); [lia|]. destruct (Z.ltb_spec c 0x800); [lia|]. destruct (Z.ltb_spec c 0x10000); [|lia].
  assert (E1 : c / 4096 = b0 - 224) by (unfold c; Z.div_mod_to_equations; lia).
  assert (E2 : c / 64 = (b0 - 224) * 64 + (b1 - 128)) by (unfold c; Z.div_mod_to_equations; lia).
  assert (E3 : c mod 64 = b2 - 128) by (unfold c; Z.div_mod_to_equations; lia).
  rewrite E1, E2, E3. f_equal; [lia|f_equal]; [Z.div_mod_to_equations; lia|f_equal; lia].
Qed.

Lemma decode4 : forall b0 b1 b2 b3, 240 <= b0 <= 244 -> 128 <= b1 <= 191 -> 128 <= b2 <= 191 -> 128 <= b3 <= 191 ->
  (b0 = 240 -> 144 <= b1) -> (b0 = 244 -> b1 <= 143) ->
  exists c, scalar c /\ utf8_encode c = [b0; b1; b2; b3].
Proof.
  intros b0 b1 b2 b3 H0 H1 H2 H3 Ha Hb. exists ((b0 - 240) * 262144 + (b1 - 128) * 4096 + (b2 - 128) * 64 + (b3 - 128)).
  set (c := (b0 - 240) * 262144 + (b1 - 128) * 4096 + (b2 - 128) * 64 + (b3 - 128)).
  assert (Hc : 0x10000 <= c <= 0x10FFFF) by (unfold c; lia).
  split; [unfold scalar, c; lia|].
  unfold utf8_encode. change (2^6) with 64. change (2^12) with 4096. change (2^18) with 262144.
  destruct (Z.ltb_spec c 0x80); [lia|]. destruct (Z.ltb_spec c 0x800); [lia|]. destruct (Z.ltb_spec c 0x10000); [lia|].
  assert (E1 : c / 262144 = b0 - 240) by (unfold c; Z.div_mod_to_equations; lia).
  assert (E2 : c / 4096 = (b0 - 240) * 64 + (b1 - 128)) by (unfold c; Z.div_mod_to_equations; lia).
  assert (E3 : c / 64 = ((b0 - 240) * 64 + (b1 - 128)) * 64 + (b2 - 128)) by (unfold c; Z.div_mod_to_equations; lia).
  assert (E4 : c mod 64 = b3 - 128) by (unfold c; Z.div_mod_to_equations; lia).
  rewrite E1, E2, E3, E4. f_equal; [lia|]. f_equal; [Z.div_mod_to_equations; lia|]. f_equal; [Z.div_mod_to_equations; lia|].
  f_equal. lia.
Qed.

Definition textz (l : list Z) : Prop := exists cs, Forall scalar cs /\ l = flat_map utf8_encode cs.
Lemma textz_cons : forall c l h, scalar c -> utf8_encode c = h -> textz l -> textz (h ++ l).
Proof.
  intros c l h Hc Hh (cs & Hs & Hl). exists (c :: cs). split; [now constructor|]. cbn [flat_map]. now rewrite Hh, <- Hl.
Qed.

Lemma valid_textz : forall n l, (length l <= n)%nat -> Forall (fun b => 0 <= b < 256) l -> utf8_valid_z l = true -> textz l.
Proof.
  induction n as [|n IH]; intros l Hn Hr Hv.
  { destruct l; [|cbn in Hn; lia]. exists []. split; [constructor|reflexivity]. }
  destruct l as [|b0 l1]; [exists []; split; [constructor|reflexivity]|].
  cbn [length] in Hn. inversion Hr as [|? ? R0 R1]; subst. cbn [utf8_valid_z] in Hv.
  destruct (Z.ltb_spec b0 128) as [L|L].
  { apply (textz_cons b0 l1 [b0]); [left; lia| |apply IH; auto; lia].
    unfold utf8_encode. destruct (Z.ltb_spec b0 0x80); [reflexivity|lia]. }
  destruct (between_b 194 223 b0) eqn:E2.
  { apply between_spec in E2. destruct l1 as [|b1 l2]; [discriminate Hv|].
    apply andb_true_iff in Hv. destruct Hv as [C1 Hv]. apply between_spec in C1.
    inversion R1 as [|? ? R2 R3]; subst. cbn [length] in Hn.
    destruct (decode2 b0 b1 E2 C1) as (c & Hc & He). apply (textz_cons c l2 [b0; b1]); auto. apply IH; auto; lia. }
  destruct (between_b 224 239 b0) eqn:E3.
  { apply between_spec in E3. destruct l1 as [|b1 [|b2 l3]]; try discriminate Hv.
    apply andb_true_iff in Hv. destruct Hv as [Hv Hr3]. apply andb_true_iff in Hv. destruct Hv as [Hv C2]. apply between_spec in C2.
    rewrite !orb_true_iff, !andb_true_iff, !between_spec, !Z.eqb_eq in Hv.
    inversion R1 as [|? ? R2 R3]; subst. inversion R3 as [|? ? R4 R5]; subst. cbn [length] in Hn.
    destruct (decode3 b0 b1 b2 E3) as (c & Hc & He); try lia.
    apply (textz_cons c l3 [b0; b1; b2]); auto. apply IH; auto; lia. }
  destruct (between_b 240 244 b0) eqn:E4; [|discriminate Hv].
  apply between_spec in E4. destruct l1 as [|b1 [|b2 [|b3 l4]]]; try discriminate Hv.
  apply andb_true_iff in Hv. destruct Hv as [Hv Hr3]. apply andb_true_iff in Hv. destruct Hv as [Hv C3]. apply between_spec in C3.
  apply andb_true_iff in Hv. destruct Hv as [Hv C2]. apply between_spec in C2.
  rewrite !orb_true_iff, !andb_true_iff, !between_spec, !Z.eqb_eq in Hv.
  inversion R1 as [|? ? R2 R3]; subst. inversion R3 as [|? ? R4 R5]; subst. inversion R5 as [|? ? R6 R7]; subst. cbn [length] in Hn.
  destruct (decode4 b0 b1 b2 b3 E4) as (c & Hc & He); try lia.
  apply (textz_cons c l4 [b0; b1; b2; b3]); auto. apply IH; auto; lia.
Qed.

Lemma between_true : forall lo hi b, lo <= b <= hi -> between_b lo hi b = true.
Proof. intros. now apply between_spec. Qed.
Lemma between_false : forall lo hi b, ~ (lo <= b <= hi) -> between_b lo hi b = false.
Proof. intros lo hi b H. destruct (between_b lo hi b) eqn:E; [apply between_spec in E; contradiction|reflexivity]. Qed.

Lemma valid_encode : forall c l, scalar c -> utf8_valid_z (utf8_encode c ++ l) = utf8_valid_z l.
Proof.
  intros c l Hc. unfold utf8_encode. change (2^6) with 64. change (2^12) with 4096. change (2^18) with 262144.
  destruct (Z.ltb_spec c 0x80) as [L1|L1].
  { cbn [app utf8_valid_z]. destruct (Z.ltb_spec c 128); [reflexivity|lia]. }
  destruct (Z.ltb_spec c 0x800) as [L2|L2].
  { assert (A : 194 <= 0xC0 + c / 64 <= 223) by (Z.div_mod_to_equations; lia).
    assert (B : 128 <= 0x80 + c mod 64 <= 191) by (Z.div_mod_to_equations; lia).
    set (b0 := 0xC0 + c / 64) in *. set (b1 := 0x80 + c mod 64) in *. clearbody b0 b1.
    cbn [app utf8_valid_z]. destruct (Z.ltb_spec b0 128); [lia|]. rewrite between_true by lia.
    unfold continuation. now rewrite between_true by lia. }
  destruct (Z.ltb_spec c 0x10000) as [L3|L3].
  { set (b0 := 0xE0 + c / 4096). set (b1 := 0x80 + (c / 64) mod 64). set (b2 := 0x80 + c mod 64).
    assert (A : 224 <= b0 <= 239) by (unfold b0; Z.div_mod_to_equations; lia).
    assert (B : 128 <= b1 <= 191) by (unfold b1; Z.div_mod_to_equations; lia).
    assert (C : 128 <= b2 <= 191) by (unfold b2; Z.div_mod_to_equations; lia).
    assert (V : c = (b0 - 224) * 4096 + (b1 - 128) * 64 + (b2 - 128)).
    { unfold b0, b1, b2. replace (c / 4096) with (c / 64 / 64) by (rewrite Z.div_div by lia; reflexivity).
      Z.div_mod_to_equations; lia. }
    clearbody b0 b1 b2. unfold scalar in Hc.
    cbn [app utf8_valid_z]. destruct (Z.ltb_spec b0 128); [lia|].
    rewrite (between_false 194 223) by lia. rewrite (between_true 224 239) by lia.
    unfold continuation. rewrite (between_true _ _ b2) by lia.
    assert (K : ((b0 =? 224) && between_b 160 191 b1 || between_b 225 236 b0 && between_b 128 191 b1
             || (b0 =? 237) && between_b 128 159 b1 || between_b 238 239 b0 && between_b 128 191 b1) = true).
    { rewrite !orb_true_iff, !andb_true_iff, !between_spec, !Z.eqb_eq. lia. }
    rewrite K. reflexivity. }
  set (b0 := 0xF0 + c / 262144). set (b1 := 0x80 + (c / 4096) mod 64). set (b2 := 0x80 + (c / 64) mod 64). set (b3 := 0x80 + c mod 64).
  unfold scalar in Hc.
  assert (A : 240 <= b0 <= 244) by (unfold b0; Z.div_mod_to_equations; lia).
  assert (B : 128 <= b1 <= 191) by (unfold b1; Z.div_mod_to_equations; lia).
  assert (C : 128 <= b2 <= 191) by (unfold b2; Z.div_mod_to_equations; lia).
  assert (D : 128 <= b3 <= 191) by (unfold b3; Z.div_mod_to_equations; lia).
  assert (V : c = (b0 - 240) * 262144 + (b1 - 128) * 4096 + (b2 - 128) * 64 + (b3 - 128)).
  { unfold b0, b1, b2, b3.
    replace (c / 262144) with (c / 64 / 64 / 64) by (rewrite !Z.div_div by lia; reflexivity).
    replace (c / 4096) with (c / 64 / 64) by (rewrite !Z.div_div by lia; reflexivity).
    Z.div_mod_to_equations; lia. }
  clearbody b0 b1 b2 b3.
  cbn [app utf8_valid_z]. destruct (Z.ltb_spec b0 128); [lia|].
  rewrite (between_false 194 223) by lia. rewrite (between_false 224 239) by lia. rewrite (between_true 240 244) by lia.
  unfold continuation. rewrite (between_true _ _ b2), (between_true _ _ b3) by lia.
  assert (K : ((b0 =? 240) && between_b 144 191 b1 || between_b 241 243 b0 && between_b 128 191 b1
           || (b0 =? 244) && between_b 128 143 b1) = true).
  { rewrite !orb_true_iff, !andb_true_iff, !between_spec, !Z.eqb_eq. lia. }
  rewrite K. reflexivity.
Qed.

Lemma utf8_text : forall b, utf8_valid b = true <-> is_text b.
Proof.
  intros b. unfold utf8_valid, is_text. split.
  - intros H. apply (valid_textz (length (map byte_val b))); auto.
    apply Forall_map, Forall_forall. intros x _. apply byte_val_range.
  - intros (cs & Hs & ->). induction Hs as [|c cs Hc Hs IH]; [reflexivity|]. cbn [flat_map]. now rewrite valid_encode.
Qed.

(** ** Fields *)
Lemma byte_val_inj : forall a b, byte_val a = byte_val b -> a = b.
Proof.
  intros a b H. unfold byte_val in H. apply N2Z.inj in H.
  pose proof (Byte.of_to_N a) as Ha. pose proof (Byte.of_to_N b) as Hb. rewrite H in Ha. congruence.
Qed.
Lemma is_space_spec : forall b, is_space b = true <-> b = x20.
Proof.
  intros b. unfold is_space. rewrite Z.eqb_eq. split; [|now intros ->].
  intros H. apply byte_val_inj. exact H.
Qed.

Lemma split_nonempty : forall b, split_spaces b <> [].
Proof.
  induction b as [|a b IH]; cbn [split_spaces]; [discriminate|].
  destruct (split_spaces b); [contradiction|]. destruct (is_space a); discriminate.
Qed.
Lemma join_cons : forall f fs, fs <> [] -> join_spaces (f :: fs) = f ++ x20 :: join_spaces fs.
Proof. intros f [|g fs] H; [contradiction|reflexivity]. Qed.

Lemma split_fields : forall b, fields_of b (split_spaces b).
Proof.
  intros b. split; [apply split_nonempty|]. induction b as [|a b [IH1 IH2]].
  - split; [reflexivity|]. constructor; [intros []|constructor].
  - cbn [split_spaces]. pose proof (split_nonempty b) as Hn. destruct (split_spaces b) as [|f fs]; [contradiction|].
    destruct (is_space a) eqn:E.
    + apply is_space_spec in E. subst a. split.
      * rewrite join_cons by discriminate. cbn [app]. now rewrite IH1.
      * constructor; [intros []|assumption].
    + assert (Ha : a <> x20) by (intros ->; discriminate E). split.
      * rewrite <- IH1. destruct fs; reflexivity.
      * inversion IH2; subst. constructor; auto. intros [Hx|Hx]; congruence || contradiction.
Qed.

Lemma app_sep_inj : forall (f g : bytes) r s, ~ In x20 f -> ~ In x20 g -> f ++ x20 :: r = g ++ x20 :: s -> f = g /\ r = s.
Proof.
  induction f as [|a f IH]; intros [|b g] r s Hf Hg E; cbn [app] in E.
  - inversion E; auto.
  - inversion E; subst. exfalso. apply Hg. now left.
  - inversion E; subst. exfalso. apply Hf. now left.
  - inversion E; subst. destruct (IH g r s) as [-> ->]; auto; intros H; [apply Hf|apply Hg]; now right.
Qed.

Lemma join_inj : forall fs gs, fs <> [] -> gs <> [] -> Forall (fun f => ~ In x20 f) fs -> Forall (fun f => ~ In x20 f) gs ->
  join_spaces fs = join_spaces gs -> fs = gs.
Proof.
  induction fs as [|f fs IH]; intros [|g gs] Hf Hg Ff Fg E; try contradiction.
  inversion Ff as [|? ? F1 F2]; inversion Fg as [|? ? G1 G2]; subst.
  destruct fs as [|f' fs], gs as [|g' gs].
  - cbn in E. now rewrite E.
  - rewrite (join_cons g) in E by discriminate. cbn [join_spaces] in E. exfalso. apply F1. rewrite E. apply in_or_app. right. now left.
  - rewrite (join_cons f) in E by discriminate. cbn [join_spaces] in E. exfalso. apply G1. rewrite <- E. apply in_or_app. right. now left.
  - rewrite !join_cons in E by discriminate. apply app_sep_inj in E; auto. destruct E as [-> E].
    f_equal. apply IH; auto; discriminate.
Qed.

Lemma fields_unique : forall b fs, fields_of b fs <-> fs = split_spaces b.
Proof.
  intros b fs. split; [|intros ->; apply split_fields].
  intros (H1 & H2 & H3). destruct (split_fields b) as (S1 & S2 & S3). apply join_inj; auto. congruence.
Qed.

(** ** Reading a record *)
Section Oxt.
Context {Rot : Type} (env : oxt_env Rot).

Lemma record_read : forall b g rot origin, is_record env b g rot ->
  oxt_read env (IoOk b) origin =
  IoOk (match origin with
        | Some o => ((gps_to_meters (cos64 env) g o, rot), o)
        | None => ((zero_translation, rot), g)
        end).
Proof.
  intros b g rot origin (Ht & f0 & f1 & f2 & f3 & f4 & f5 & more & lat & lon & alt & roll & pitch & yaw & Hf & P0 & P1 & P2 & P3 & P4 & P5 & -> & ->).
  apply utf8_text in Ht. apply fields_unique in Hf.
  unfold oxt_read, read_to_string. cbn [iobind]. rewrite Ht. cbn [iobind]. rewrite <- Hf.
  change (Nat.ltb (length (f0 :: f1 :: f2 :: f3 :: f4 :: f5 :: more)) 6) with false. cbn [nth].
  unfold str_to_float. rewrite P0, P1, P2, P3, P4, P5. cbn [iobind]. destruct origin; reflexivity.
Qed.

Lemma read_record : forall b origin r, oxt_read env (IoOk b) origin = IoOk r -> exists g rot, is_record env b g rot.
Proof.
  intros b origin r. unfold oxt_read, read_to_string. cbn [iobind].
  destruct (utf8_valid b) eqn:Ht; [|discriminate]. cbn [iobind].
  pose proof (split_fields b) as Hf.
  destruct (split_spaces b) as [|f0 [|f1 [|f2 [|f3 [|f4 [|f5 more]]]]]]; try discriminate.
  change (Nat.ltb (length (f0 :: f1 :: f2 :: f3 :: f4 :: f5 :: more)) 6) with false. cbn [nth].
  unfold str_to_float.
  destruct (parse64 env f0) eqn:P0; [|discriminate]. destruct (parse64 env f1) eqn:P1; [|discriminate].
  destruct (parse64 env f2) eqn:P2; [|discriminate]. destruct (parse32 env f3) eqn:P3; [|discriminate].
  destruct (parse32 env f4) eqn:P4; [|discriminate]. destruct (parse32 env f5) eqn:P5; [|discriminate].
  intros _. do 2 eexists. split; [now apply utf8_text|].
  do 13 eexists. split; [exact Hf|]. repeat split; eassumption.
Qed.

Lemma read_accepts : forall b origin,
  (exists r, oxt_read env (IoOk b) origin = IoOk r) <->
  is_text b /\ exists fs, fields_of b fs /\ (6 <= length fs)%nat /\
    (forall i, (i < 3)%nat -> parse64 env (nth i fs []) <> None) /\
    (forall i, (3 <= i < 6)%nat -> parse32 env (nth i fs []) <> None).
Proof.
  intros b origin. split.
  - intros (r & Hr). apply read_record in Hr.
    destruct Hr as (g & rot & Ht & f0 & f1 & f2 & f3 & f4 & f5 & more & lat & lon & alt & roll & pitch & yaw & Hf & P0 & P1 & P2 & P3 & P4 & P5 & _).
    split; [assumption|]. eexists. split; [exact Hf|]. split; [cbn [length]; lia|]. split.
    + intros [|[|[|i]]] Hi; cbn [nth]; try lia; congruence.
    + intros [|[|[|[|[|[|i]]]]]] Hi; cbn [nth]; try lia; congruence.
  - intros (Ht & fs & Hf & Hl & H64 & H32).
    destruct fs as [|f0 [|f1 [|f2 [|f3 [|f4 [|f5 more]]]]]]; cbn [length] in Hl; try lia.
    pose proof (H64 0%nat ltac:(lia)) as Q0. pose proof (H64 1%nat ltac:(lia)) as Q1. pose proof (H64 2%nat ltac:(lia)) as Q2.
    pose proof (H32 3%nat ltac:(lia)) as Q3. pose proof (H32 4%nat ltac:(lia)) as Q4. pose proof (H32 5%nat ltac:(lia)) as Q5.
    cbn [nth] in *.
    destruct (parse64 env f0) eqn:P0; [|congruence]. destruct (parse64 env f1) eqn:P1; [|congruence].
    destruct (parse64 env f2) eqn:P2; [|congruence]. destruct (parse32 env f3) eqn:P3; [|congruence].
    destruct (parse32 env f4) eqn:P4; [|congruence]. destruct (parse32 env f5) eqn:P5; [|congruence].
    eexists. apply record_read. split; [assumption|]. do 13 eexists. split; [exact Hf|]. repeat split; eassumption.
Qed.

(** Every failure is one of the three errors, with their priorities. *)
Lemma read_fails : forall b origin e, oxt_read env (IoOk b) origin = IoErr e ->
  (e = InvalidUtf8 /\ ~ is_text b) \/
  (is_text b /\ exists fs, fields_of b fs /\
     ((e = InvalidLength /\ (length fs < 6)%nat) \/
      (e = InvalidFloat /\ (6 <= length fs)%nat /\
       ((exists i, (i < 3)%nat /\ parse64 env (nth i fs []) = None) \/
        (exists i, (3 <= i < 6)%nat /\ parse32 env (nth i fs []) = None))))).
Proof.
  intros b origin e. unfold oxt_read, read_to_string. cbn [iobind].
  destruct (utf8_valid b) eqn:Ht; cbn [iobind].
  2:{ intros [= <-]. left. split; [reflexivity|]. rewrite <- utf8_text, Ht. discriminate. }
  apply utf8_text in Ht. intros H. right. split; [assumption|]. exists (split_spaces b). split; [apply split_fields|].
  destruct (Nat.ltb_spec (length (split_spaces b)) 6) as [L|L].
  - left. split; [congruence|assumption].
  - right. unfold str_to_float in H.
    destruct (parse64 env (nth 0 (split_spaces b) [])) eqn:P0; cbn [iobind] in H.
    2:{ injection H as <-. repeat split; auto. left. exists 0%nat. split; [lia|assumption]. }
    destruct (parse64 env (nth 1 (split_spaces b) [])) eqn:P1; cbn [iobind] in H.
    2:{ injection H as <-. repeat split; auto. left. exists 1%nat. split; [lia|assumption]. }
    destruct (parse64 env (nth 2 (split_spaces b) [])) eqn:P2; cbn [iobind] in H.
    2:{ injection H as <-. repeat split; auto. left. exists 2%nat. split; [lia|assumption]. }
    destruct (parse32 env (nth 3 (split_spaces b) [])) eqn:P3; cbn [iobind] in H.
    2:{ injection H as <-. repeat split; auto. right. exists 3%nat. split; [lia|assumption]. }
    destruct (parse32 env (nth 4 (split_spaces b) [])) eqn:P4; cbn [iobind] in H.
    2:{ injection H as <-. repeat split; auto. right. exists 4%nat. split; [lia|assumption]. }
    destruct (parse32 env (nth 5 (split_spaces b) [])) eqn:P5; cbn [iobind] in H.
    2:{ injection H as <-. repeat split; auto. right. exists 5%nat. split; [lia|assumption]. }
    destruct origin; discriminate H.
Qed.

Lemma nth_firstn6 : forall (fs gs : list bytes) i, firstn 6 fs = firstn 6 gs -> (i < 6)%nat -> nth i fs [] = nth i gs [].
Proof.
  intros fs gs i H Hi. rewrite <- (firstn_skipn 6 fs), <- (firstn_skipn 6 gs), H.
  assert (Hl : length (firstn 6 fs) = length (firstn 6 gs)) by now rewrite H.
  pose proof (firstn_length 6 fs) as L1. pose proof (firstn_length 6 gs) as L2.
  destruct (Nat.ltb_spec i (length (firstn 6 gs))).
  - now rewrite !app_nth1 by assumption.
  - rewrite (skipn_all2 fs), (skipn_all2 gs) by lia. reflexivity.
Qed.

Lemma later_fields : forall b b' fs fs' origin, is_text b -> is_text b' -> fields_of b fs -> fields_of b' fs' ->
  firstn 6 fs = firstn 6 fs' -> oxt_read env (IoOk b) origin = oxt_read env (IoOk b') origin.
Proof.
  intros b b' fs fs' origin Ht Ht' Hf Hf' E. apply utf8_text in Ht. apply utf8_text in Ht'.
  apply fields_unique in Hf. apply fields_unique in Hf'. subst fs fs'.
  unfold oxt_read, read_to_string. cbn [iobind]. rewrite Ht, Ht'. cbn [iobind].
  rewrite !(nth_firstn6 (split_spaces b) (split_spaces b')) by (auto; lia).
  assert (L : Nat.ltb (length (split_spaces b)) 6 = Nat.ltb (length (split_spaces b')) 6).
  { pose proof (f_equal (@length bytes) E) as L. rewrite !firstn_length in L.
    destruct (Nat.ltb_spec (length (split_spaces b)) 6), (Nat.ltb_spec (length (split_spaces b')) 6); auto; lia. }
  now rewrite L.
Qed.

(** Whether a file is read, and the error, do not depend on the origin. *)
Lemma read_origin : forall c o o',
  match oxt_read env c o, oxt_read env c o' with
  | IoOk ((_, rot), _), IoOk ((_, rot'), _) => rot = rot'
  | IoErr e, IoErr e' => e = e'
  | _, _ => False
  end.
Proof.
  intros [b|e] o o'; [|reflexivity]. unfold oxt_read. destruct (read_to_string (IoOk b)); cbn [iobind]; [|reflexivity].
  destruct (Nat.ltb _ 6); [reflexivity|]. unfold str_to_float.
  destruct (parse64 env _); cbn [iobind]; [|reflexivity]. destruct (parse64 env _); cbn [iobind]; [|reflexivity].
  destruct (parse64 env _); cbn [iobind]; [|reflexivity]. destruct (parse32 env _); cbn [iobind]; [|reflexivity].
  destruct (parse32 env _); cbn [iobind]; [|reflexivity]. destruct (parse32 env _); cbn [iobind]; [|reflexivity].
  destruct o, o'; reflexivity.
Qed.
End Oxt.
