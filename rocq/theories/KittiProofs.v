(** Proofs about the KITTI readers. *)
From Coq Require Import ZArith List Bool Reals Lia Permutation Sorted Strings.Byte.
From Flocq Require Import Core BinarySingleNaN.
From Flocq Require Binary Bits.
From Verif Require Import Base F32 F64 Arith Geom Kitti Spec SpecKitti.
Open Scope Z_scope.

(** ** Point clouds *)

Lemma byte_val_range : forall b, 0 <= byte_val b < 256.
Proof.
  intros b. unfold byte_val. pose proof (Byte.to_N_bounded b). lia.
Qed.

Lemma word_is_at : forall bo b0 b1 b2 b3 rest, word bo b0 b1 b2 b3 = word_at bo (b0 :: b1 :: b2 :: b3 :: rest) 0.
Proof. intros [] b0 b1 b2 b3 rest; unfold word, word_at, byte_at; cbn [nth Nat.add]; lia. Qed.

Lemma word_at_skip : forall bo b0 b1 b2 b3 rest off,
  word_at bo (b0 :: b1 :: b2 :: b3 :: rest) (4 + off) = word_at bo rest off.
Proof. intros [] *; reflexivity. Qed.

Section Decode.
Context {T : Type} (of_bits : Z -> T).

Lemma read_into_ok : forall bo n b, length b = (4 * n)%nat ->
  read_f32_into of_bits bo n b = IoOk (map (fun j => of_bits (word_at bo b (4 * j))) (seq 0 n)).
Proof.
  induction n as [|n IH]; intros b Hl; [reflexivity|].
  destruct b as [|b0 [|b1 [|b2 [|b3 rest]]]]; cbn [length] in Hl; try lia.
  cbn [read_f32_into]. rewrite IH by lia. cbn [iobind seq map]. f_equal. f_equal.
  - now rewrite (word_is_at bo b0 b1 b2 b3 rest).
  - rewrite <- seq_shift, map_map. apply map_ext. intros j. f_equal.
    replace (4 * S j)%nat with (4 + 4 * j)%nat by lia. now rewrite word_at_skip.
Qed.

Lemma drop4 : forall n i (l : list T), (i mod 4 = 0)%nat -> length l = (4 * n)%nat ->
  drop_intensity i l = flat_map (fun j => firstn 3 (skipn (4 * j) l)) (seq 0 n).
Proof.
  induction n as [|n IH]; intros i l Hi Hl.
  { destruct l; cbn [length] in Hl; [reflexivity|lia]. }
  destruct l as [|a [|b [|c [|d l]]]]; cbn [length] in Hl; try lia.
  pose proof (Nat.div_mod i 4 ltac:(lia)) as Hd.
  assert (E : forall k, ((i + k) mod 4 = k mod 4)%nat).
  { intros k. rewrite Hd, Hi. replace (4 * (i / 4) + 0 + k)%nat with (k + (i / 4) * 4)%nat by lia. apply Nat.mod_add. lia. }
  cbn [drop_intensity].
  replace (S i + 1)%nat with (i + 2)%nat by lia. replace (S (S i) + 1)%nat with (i + 3)%nat by lia.
  replace (S (S (S i)) + 1)%nat with (i + 4)%nat by lia.
  rewrite !E. cbn [Nat.modulo Nat.divmod Nat.sub Nat.eqb fst snd].
  rewrite (IH (S (S (S (S i))))) by (try lia; replace (S (S (S (S i)))) with (i + 4)%nat by lia; now rewrite E).
  assert (Ht : flat_map (fun j => firstn 3 (skipn (4 * j) (a :: b :: c :: d :: l))) (seq 1 n)
             = flat_map (fun j => firstn 3 (skipn (4 * j) l)) (seq 0 n)).
  { rewrite <- seq_shift, !flat_map_concat_map, map_map. f_equal. apply map_ext. intros j.
    replace (4 * S j)%nat with (4 + 4 * j)%nat by lia. reflexivity. }
  rewrite <- Ht. reflexivity.
Qed.

Lemma firstn_map : forall (A B : Type) (f : A -> B) n l, firstn n (map f l) = map f (firstn n l).
Proof. induction n as [|n IH]; intros [|a l]; cbn; f_equal; auto. Qed.
Lemma skipn_map' : forall (A B : Type) (f : A -> B) n l, skipn n (map f l) = map f (skipn n l).
Proof. induction n as [|n IH]; intros [|a l]; cbn; auto. Qed.
Lemma skipn_seq : forall n a k, skipn k (seq a n) = seq (a + k) (n - k).
Proof.
  induction n as [|n IH]; intros a [|k]; cbn [seq skipn Nat.sub]; rewrite ?Nat.add_0_r; auto.
  rewrite IH. f_equal; lia.
Qed.
Lemma firstn_seq : forall n a k, (k <= n)%nat -> firstn k (seq a n) = seq a k.
Proof.
  induction n as [|n IH]; intros a [|k] H; cbn [seq firstn]; try lia; auto. f_equal. apply IH. lia.
Qed.

Definition record_at (bo : byte_order) (b : bytes) (i : nat) : list T :=
  [of_bits (word_at bo b (16 * i)); of_bits (word_at bo b (16 * i + 4)); of_bits (word_at bo b (16 * i + 8))].

Lemma read_values_ok : forall bo b, (length b mod 16 = 0)%nat ->
  read_values of_bits bo (IoOk b) =
  IoOk ((length b / 16)%nat, flat_map (record_at bo b) (seq 0 (length b / 16))).
Proof.
  intros bo b Hm. pose proof (Nat.div_mod (length b) 16 ltac:(lia)) as Hd. rewrite Hm in Hd.
  set (n := (length b / 16)%nat) in *. unfold read_values. cbn [iobind].
  change (4 * 4)%nat with 16%nat. rewrite Hm. cbn [Nat.eqb negb].
  assert (E4 : (length b / 4 = 4 * n)%nat).
  { rewrite Hd. replace (16 * n + 0)%nat with ((4 * n) * 4)%nat by lia. apply Nat.div_mul. lia. }
  rewrite E4. assert (E : (4 * n / 4 = n)%nat) by (rewrite Nat.mul_comm; apply Nat.div_mul; lia).
  rewrite E. rewrite read_into_ok by lia. cbn [iobind]. f_equal. f_equal.
  rewrite (drop4 n 0) by (try reflexivity; rewrite map_length, seq_length; lia).
  rewrite !flat_map_concat_map. f_equal. apply map_ext_in. intros i Hi. apply in_seq in Hi.
  rewrite skipn_map', firstn_map, skipn_seq, firstn_seq by lia.
  unfold record_at. cbn [seq map]. 
  replace (4 * (0 + 4 * i))%nat with (16 * i)%nat by lia. replace (4 * S (0 + 4 * i))%nat with (16 * i + 4)%nat by lia.
  replace (4 * S (S (0 + 4 * i)))%nat with (16 * i + 8)%nat by lia. reflexivity.
Qed.

Lemma nth_records : forall bo b n i k, (i < n)%nat -> (k < 3)%nat ->
  nth_error (flat_map (record_at bo b) (seq 0 n)) (3 * i + k) = Some (of_bits (word_at bo b (16 * i + 4 * k))).
Proof.
  intros bo b n. assert (H : forall a i k, (i < n)%nat -> (k < 3)%nat ->
    nth_error (flat_map (record_at bo b) (seq a n)) (3 * i + k) = Some (of_bits (word_at bo b (16 * (a + i) + 4 * k)))).
  { induction n as [|n IH]; intros a i k Hi Hk; [lia|].
    cbn [seq flat_map]. destruct i as [|i].
    - rewrite nth_error_app1 by (cbn [record_at length]; lia).
      rewrite Nat.add_0_r. destruct k as [|[|[|k]]]; try lia; cbn [Nat.mul Nat.add record_at nth_error];
        rewrite ?Nat.add_0_r; reflexivity.
    - rewrite nth_error_app2 by (cbn [record_at length]; lia). cbn [record_at length].
      replace (3 * S i + k - 3)%nat with (3 * i + k)%nat by lia.
      rewrite (IH (S a) i k) by lia. replace (S a + i)%nat with (a + S i)%nat by lia. reflexivity. }
  intros i k. apply (H 0%nat).
Qed.

Lemma records_length : forall bo b l, length (flat_map (record_at bo b) l) = (3 * length l)%nat.
Proof. intros bo b l. induction l as [|a l IH]; [reflexivity|]. cbn [flat_map record_at length app]. rewrite IH. lia. Qed.

Lemma read_values_spec : forall bo b,
  (length b mod 16 <> 0 -> read_values of_bits bo (IoOk b) = IoErr InvalidLength)%nat /\
  (length b mod 16 = 0 -> exists vals, read_values of_bits bo (IoOk b) = IoOk (length b / 16, vals) /\
     length vals = 3 * (length b / 16) /\
     forall i k, i < length b / 16 -> k < 3 ->
       nth_error vals (3 * i + k) = Some (of_bits (word_at bo b (16 * i + 4 * k))))%nat.
Proof.
  intros bo b. split.
  - intros H. unfold read_values. cbn [iobind]. change (4 * 4)%nat with 16%nat.
    apply Nat.eqb_neq in H. now rewrite H.
  - intros H. eexists. split; [now apply read_values_ok|]. split; [now rewrite records_length, seq_length|].
    intros i k Hi Hk. now apply nth_records.
Qed.
End Decode.

Lemma cloud_read_ok : forall bo b, (length b mod 16 = 0)%nat ->
  cloud_read bo (IoOk b) = Ret (IoOk (mkMatrix 3 (length b / 16) (flat_map (record_at f32_of_bits bo b) (seq 0 (length b / 16))))).
Proof.
  intros bo b H. unfold cloud_read. rewrite read_values_ok by assumption. unfold matrix_from_iterator.
  rewrite records_length, seq_length. now rewrite Nat.eqb_refl.
Qed.

Lemma map_mcol_seq : forall (f : nat -> list f32) n, (forall i, length (f i) = 3%nat) ->
  map (mcol (mkMatrix 3 n (flat_map f (seq 0 n)))) (seq 0 n) = map f (seq 0 n).
Proof.
  intros f n Hf. apply map_ext_in. intros i Hi. apply in_seq in Hi. unfold mcol. cbn [nrows mdata].
  assert (H : forall m a j, (j < m)%nat -> firstn 3 (skipn (j * 3) (flat_map f (seq a m))) = f (a + j)%nat).
  { induction m as [|m IH]; intros a j Hj; [lia|]. cbn [seq flat_map]. destruct j as [|j].
    - cbn [Nat.mul skipn]. rewrite firstn_app, Hf, Nat.sub_diag, firstn_O, app_nil_r, Nat.add_0_r.
      apply firstn_all2. rewrite Hf. lia.
    - rewrite skipn_app, Hf. rewrite skipn_all2 by (rewrite Hf; lia). cbn [app].
      replace (S j * 3 - 3)%nat with (j * 3)%nat by lia. rewrite IH by lia. f_equal. lia. }
  now rewrite H by lia.
Qed.

Lemma cloud_read_spec : forall bo b,
  (length b mod 16 <> 0 -> cloud_read bo (IoOk b) = Ret (IoErr InvalidLength))%nat /\
  (length b mod 16 = 0 -> exists m, cloud_read bo (IoOk b) = Ret (IoOk m) /\ matrix_ok m /\ nrows m = 3 /\
     pc_points m = map (fun i => [f32_of_bits (word_at bo b (16 * i)); f32_of_bits (word_at bo b (16 * i + 4));
                                  f32_of_bits (word_at bo b (16 * i + 8))]) (seq 0 (length b / 16)))%nat.
Proof.
  intros bo b. split; intros H.
  - unfold cloud_read. now rewrite (proj1 (read_values_spec f32_of_bits bo b) H).
  - eexists. split; [now apply cloud_read_ok|]. split; [|split; [reflexivity|]].
    + unfold matrix_ok. cbn [mdata nrows ncols]. now rewrite records_length, seq_length.
    + unfold pc_points. cbn [ncols]. now apply (map_mcol_seq (record_at f32_of_bits bo b)).
Qed.

(** *** Bit patterns *)

Lemma f32_of_bits_ieee : forall w, 0 <= w < 2^32 -> ieee_means w (f32_of_bits w).
Proof.
  intros w Hw. unfold f32_of_bits, Bits.b32_of_bits, Bits.binary_float_of_bits.
  pose proof (Bits.binary_float_of_bits_aux_correct 23 8 eq_refl eq_refl eq_refl w) as Hv.
  match goal with |- context [Binary.FF2B _ _ _ ?H] => generalize H end. clear Hv.
  unfold Bits.binary_float_of_bits_aux, Bits.split_bits, ieee_means.
  change (Z.pow 2 23 * Z.pow 2 8) with (2^31). change (Z.pow 2 8 - 1) with 255.
  set (s := 2 ^ 31 <=? w). set (e := (w / 2 ^ 23) mod 2 ^ 8). set (f := w mod 2 ^ 23).
  assert (Hf : 0 <= f < 2^23) by (apply Z.mod_pos_bound; lia).
  assert (He : 0 <= e < 2^8) by (apply Z.mod_pos_bound; lia).
  clearbody s e f. clear Hw w.
  destruct (Z.eqb_spec e 0) as [E0|E0].
  - subst e. change (0 =? 255) with false. change (Zeq_bool 0 0) with true. cbn iota.
    destruct f as [|p|p]; [intros v|intros v|lia].
    + cbn. rewrite Rmult_0_l, Rmult_0_r. auto.
    + repeat split. cbn -[bpow IZR]. unfold F2R. cbn [Fnum Fexp].
      change (SpecFloat.emin 24 128) with (-149). destruct s; cbn [cond_Zopp]; rewrite ?opp_IZR; ring.
  - assert (Ez : Zeq_bool e 0 = false) by (destruct (Zeq_bool e 0) eqn:E; [apply Zeq_bool_eq in E; lia|reflexivity]).
    rewrite Ez. destruct (Z.eqb_spec e 255) as [E1|E1].
    + subst e. change (Zeq_bool 255 255) with true. cbn iota. destruct f as [|p|p]; intros v; try lia; reflexivity.
    + assert (Ez' : Zeq_bool e 255 = false) by (destruct (Zeq_bool e 255) eqn:E; [apply Zeq_bool_eq in E; lia|reflexivity]).
      rewrite Ez'. destruct (f + Z.pow 2 23) as [|p|p] eqn:Ep; try lia.
      intros v. assert (Ef : 2^23 + f = Zpos p) by lia. rewrite Ef. 
      repeat split. cbn -[bpow]. unfold F2R. cbn [Fnum Fexp].
      replace (e + -149 - 1) with (e - 150) by lia.
      destruct s; cbn [cond_Zopp]; rewrite ?opp_IZR; ring.
Qed.

Lemma bits_exact : forall w, 0 <= w < 2^32 -> is_nan (f32_of_bits w) = false -> bits_of_f32 (f32_of_bits w) = w.
Proof.
  intros w Hw Hn. unfold bits_of_f32, f32_of_bits in *.
  assert (E : Binary.BSN2B 24 128 Bits.default_nan_pl32 (Binary.B2BSN 24 128 (Bits.b32_of_bits w)) = Bits.b32_of_bits w).
  { rewrite Binary.is_nan_B2BSN in Hn. destruct (Bits.b32_of_bits w); try reflexivity. discriminate Hn. }
  rewrite E. apply (Bits.bits_of_binary_float_of_bits 23 8 eq_refl eq_refl eq_refl). exact Hw.
Qed.

Lemma bits_range : forall x, 0 <= bits_of_f32 x < 2^32.
Proof. intros x. apply (Bits.bits_of_binary_float_range 23 8 eq_refl eq_refl). Qed.

Lemma bits_back : forall x, f32_of_bits (bits_of_f32 x) = x.
Proof.
  intros x. unfold f32_of_bits, bits_of_f32, Bits.b32_of_bits, Bits.bits_of_b32.
  rewrite Bits.binary_float_of_bits_of_binary_float. apply Binary.B2BSN_BSN2B.
Qed.

Lemma byte_of_val : forall z, byte_val (byte_of z) = z mod 256.
Proof.
  intros z. unfold byte_of, byte_val. pose proof (Z.mod_pos_bound z 256 ltac:(lia)) as Hb.
  destruct (Byte.of_N (Z.to_N (z mod 256))) as [b|] eqn:E.
  - apply Byte.to_of_N in E. rewrite E. lia.
  - apply Byte.of_N_None_iff in E. lia.
Qed.

Lemma put_word_length : forall bo w, length (put_word bo w) = 4%nat.
Proof. intros [] w; reflexivity. Qed.

Lemma word_at_app : forall bo a b off, (off + 3 < length a)%nat -> word_at bo (a ++ b) off = word_at bo a off.
Proof. intros bo a b off H. unfold word_at, byte_at. destruct bo; rewrite !app_nth1 by lia; reflexivity. Qed.
Lemma word_at_app2 : forall bo a b off, word_at bo (a ++ b) (length a + off) = word_at bo b off.
Proof.
  intros bo a b off. unfold word_at, byte_at.
  assert (H : forall k, nth (length a + k) (a ++ b) x00 = nth k b x00) by (intros k; rewrite app_nth2_plus; reflexivity).
  rewrite <- !Nat.add_assoc, !H. reflexivity.
Qed.

Lemma put_word_at : forall bo w, 0 <= w < 2^32 -> word_at bo (put_word bo w) 0 = w.
Proof.
  intros bo w Hw. assert (E : w mod 256 + 2^8 * ((w / 2^8) mod 256) + 2^16 * ((w / 2^16) mod 256) + 2^24 * ((w / 2^24) mod 256) = w).
  { rewrite (Z.mod_small (w / 2^24)) by (split; [apply Z.div_pos; lia|apply Z.div_lt_upper_bound; lia]).
    pose proof (Z.div_mod w 256 ltac:(lia)) as D0. pose proof (Z.div_mod (w / 2^8) 256 ltac:(lia)) as D1.
    pose proof (Z.div_mod (w / 2^16) 256 ltac:(lia)) as D2.
    rewrite Z.div_div in D1, D2 by lia. change (2^8 * 256) with (2^16) in D1. change (2^16 * 256) with (2^24) in D2.
    change (2^8) with 256 in *. lia. }
  destruct bo; unfold word_at, byte_at, put_word; cbn [rev app nth Nat.add]; rewrite !byte_of_val; exact E.
Qed.

Lemma put_record_words : forall bo x y z i rest,
  word_at bo (put_record bo [x; y; z] i ++ rest) 0 = bits_of_f32 x /\
  word_at bo (put_record bo [x; y; z] i ++ rest) 4 = bits_of_f32 y /\
  word_at bo (put_record bo [x; y; z] i ++ rest) 8 = bits_of_f32 z /\
  length (put_record bo [x; y; z] i) = 16%nat.
Proof.
  intros bo x y z i rest. unfold put_record. cbn [flat_map]. rewrite app_nil_r, <- !app_assoc.
  pose proof (put_word_length bo (bits_of_f32 x)) as Lx. pose proof (put_word_length bo (bits_of_f32 y)) as Ly.
  pose proof (put_word_length bo (bits_of_f32 z)) as Lz. pose proof (put_word_length bo i) as Li.
  repeat split.
  - rewrite word_at_app by (rewrite Lx; lia). apply put_word_at, bits_range.
  - replace 4%nat with (length (put_word bo (bits_of_f32 x)) + 0)%nat by lia. rewrite word_at_app2.
    rewrite word_at_app by (rewrite Ly; lia). apply put_word_at, bits_range.
  - replace 8%nat with (length (put_word bo (bits_of_f32 x)) + (length (put_word bo (bits_of_f32 y)) + 0))%nat by lia.
    rewrite !word_at_app2. rewrite word_at_app by (rewrite Lz; lia). apply put_word_at, bits_range.
  - rewrite !app_length. lia.
Qed.

Lemma put_cloud_read : forall bo l, Forall (fun r => length (fst r) = 3%nat) l ->
  length (put_cloud bo l) = (16 * length l)%nat /\
  map (fun i => [f32_of_bits (word_at bo (put_cloud bo l) (16 * i)); f32_of_bits (word_at bo (put_cloud bo l) (16 * i + 4));
                 f32_of_bits (word_at bo (put_cloud bo l) (16 * i + 8))]) (seq 0 (length l)) = map fst l.
Proof.
  intros bo l H. induction H as [|[p i] l Hp Hl [IH1 IH2]]; [split; reflexivity|]. cbn [fst] in Hp.
  destruct p as [|x [|y [|z [|]]]]; try discriminate Hp.
  change (put_cloud bo (([x; y; z], i) :: l)) with (put_record bo [x; y; z] i ++ put_cloud bo l).
  destruct (put_record_words bo x y z i (put_cloud bo l)) as (H0 & H4 & H8 & HL).
  split; [rewrite app_length, HL, IH1; cbn [length]; lia|].
  cbn [length seq map fst]. f_equal.
  - cbn [Nat.mul Nat.add]. rewrite H0, H4, H8, !bits_back. reflexivity.
  - rewrite <- IH2, <- seq_shift, map_map. apply map_ext. intros j.
    replace (16 * S j)%nat with (length (put_record bo [x; y; z] i) + 16 * j)%nat by lia.
    rewrite <- !Nat.add_assoc, !word_at_app2. reflexivity.
Qed.

Lemma cloud_round_trip : forall bo l, Forall (fun r => length (fst r) = 3%nat) l ->
  exists m, cloud_read bo (IoOk (put_cloud bo l)) = Ret (IoOk m) /\ nrows m = 3%nat /\ pc_points m = map fst l.
Proof.
  intros bo l H. destruct (put_cloud_read bo l H) as [HL HP].
  assert (Hm : (length (put_cloud bo l) mod 16 = 0)%nat) by (rewrite HL, Nat.mul_comm; apply Nat.mod_mul; lia).
  destruct (proj2 (cloud_read_spec bo (put_cloud bo l)) Hm) as (m & E & _ & Hn & Hp).
  exists m. repeat split; auto. rewrite Hp.
  assert (Ed : (length (put_cloud bo l) / 16 = length l)%nat) by (rewrite HL, Nat.mul_comm; apply Nat.div_mul; lia).
  rewrite Ed. exact HP.
Qed.
