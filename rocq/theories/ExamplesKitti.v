(** Concrete cases for the properties of the KITTI readers. *)
From Coq Require Import ZArith List Bool Reals Lia Lra Permutation Sorted Strings.Byte.
From Flocq Require Import Core BinarySingleNaN.
From Verif Require Import Base F32 F64 Arith Geom Kitti Spec SpecKitti FloatFacts KittiProofs OxtProofs DirProofs GpsProofs.
Open Scope Z_scope.

(** (1, -2, 0.5) with intensity 9, and (4, 3, infinity) *)
Definition ex_bytes : bytes :=
  [x00; x00; x80; x3f;  x00; x00; x00; xc0;  x00; x00; x00; x3f;  x00; x00; x10; x41;
   x00; x00; x80; x40;  x00; x00; x40; x40;  x00; x00; x80; x7f;  x00; x00; x00; x00].
Definition ex_points : list point := [[f32_of_Z 1; f32_of_Z (-2); fhalf]; [f32_of_Z 4; f32_of_Z 3; finf]].

Lemma f32_eq : forall x y : f32, B2SF x = B2SF y -> x = y.
Proof. intros x y. apply B2SF_inj. Qed.

Lemma ex_decode : (length ex_bytes mod 16 = 0)%nat /\ (length (x00 :: ex_bytes) mod 16 <> 0)%nat /\
  exists m, cloud_read Little (IoOk ex_bytes) = Ret (IoOk m) /\ pc_points m = ex_points.
Proof.
  split; [reflexivity|]. split; [discriminate|].
  destruct (proj2 (cloud_read_spec Little ex_bytes) eq_refl) as (m & E & _ & _ & P). exists m. split; [exact E|].
  rewrite P. cbn [map seq length Nat.div Nat.divmod fst ex_bytes ex_points].
  repeat (apply f_equal2; [|]); try reflexivity; apply f32_eq; vm_compute; reflexivity.
Qed.
(** The first word read as big-endian is another number. *)
Lemma ex_big : word_at Big ex_bytes 0 = 0x803f /\ word_at Little ex_bytes 0 = 0x3f800000.
Proof. split; vm_compute; reflexivity. Qed.

Lemma ex_encoding : Forall (fun r : point * Z => length (fst r) = 3%nat) [(nth 0 ex_points [], 0x41100000); (nth 1 ex_points [], 0)] /\
  put_cloud Little [(nth 0 ex_points [], 0x41100000); (nth 1 ex_points [], 0)] = ex_bytes.
Proof. split; [repeat constructor|vm_compute; reflexivity]. Qed.

Lemma ex_nan : is_nan (f32_of_bits 0x7fc00000) = true /\ is_nan (f32_of_bits 0x3f800001) = false.
Proof. split; vm_compute; reflexivity. Qed.

(** ** Text.  A parser of one-digit numbers. *)
Definition digit (s : bytes) : option Z :=
  match s with [d] => if between_b 48 57 (byte_val d) then Some (byte_val d - 48) else None | _ => None end.
Definition ex_env : oxt_env (f32 * f32 * f32) :=
  mkOxtEnv _ (fun s => option_map f64_of_Z (digit s)) (fun s => option_map f32_of_Z (digit s))
           nearest_cos (fun a b c => (a, b, c)).
(** "1 2 3 4 5 6 n" where n is the letter n with tilde *)
Definition ex_line : bytes := [x31; x20; x32; x20; x33; x20; x34; x20; x35; x20; x36; x20; xc3; xb1].
(** "1 2 3 4 5 6" *)
Definition ex_line6 : bytes := [x31; x20; x32; x20; x33; x20; x34; x20; x35; x20; x36].
(** "2 2 3 4 5 6" *)
Definition ex_line' : bytes := [x32; x20; x32; x20; x33; x20; x34; x20; x35; x20; x36].

Lemma ex_is_text : is_text ex_line /\ ~ is_text [x31; xff] /\ ~ is_text [xc0; x80] /\ ~ is_text [xed; xa0; x80].
Proof. repeat split; rewrite <- utf8_text; try reflexivity; discriminate. Qed.

Lemma ex_fields : fields_of ex_line [[x31]; [x32]; [x33]; [x34]; [x35]; [x36]; [xc3; xb1]] /\
  fields_of ex_line6 [[x31]; [x32]; [x33]; [x34]; [x35]; [x36]] /\ fields_of [x31; x20; x20; x32] [[x31]; []; [x32]].
Proof. repeat split; try discriminate; repeat (apply Forall_cons; [cbn; intuition discriminate|]); constructor. Qed.

Lemma ex_record : is_record ex_env ex_line (f64_of_Z 1, f64_of_Z 2, f64_of_Z 3) (f32_of_Z 4, f32_of_Z 5, f32_of_Z 6) /\
  is_record ex_env ex_line' (f64_of_Z 2, f64_of_Z 2, f64_of_Z 3) (f32_of_Z 4, f32_of_Z 5, f32_of_Z 6).
Proof.
  split; (split; [rewrite <- utf8_text; reflexivity|]).
  - exists [x31], [x32], [x33], [x34], [x35], [x36], [[xc3; xb1]]. do 6 eexists. split; [apply ex_fields|]. repeat split; reflexivity.
  - exists [x32], [x32], [x33], [x34], [x35], [x36], []. do 6 eexists. split; [apply fields_unique; reflexivity|]. repeat split; reflexivity.
Qed.

Lemma ex_rejected : forall o, oxt_read ex_env (IoOk [x31; x20; x20; x32]) o = IoErr InvalidLength /\
  oxt_read ex_env (IoOk (x31 :: ex_line)) o = IoErr InvalidFloat /\ oxt_read ex_env (IoOk [xff]) o = IoErr InvalidUtf8.
Proof. intros o. repeat split; reflexivity. Qed.

(** ** Directories *)
(** "10.t", "02.t" and "2.t" *)
Definition name10 : name := [x31; x30; x2e; x74].
Definition name02 : name := [x30; x32; x2e; x74].
Definition name2 : name := [x32; x2e; x74].
Definition ex_dir : directory :=
  mkDir (IoOk [IoOk name10; IoOk name02]) (fun n => if name_leb n name02 then IoOk ex_line else IoOk ex_line').

Lemma ex_listing : seq_files_in_dir ex_dir = IoOk [name02; name10].
Proof. reflexivity. Qed.
Lemma ex_dir_records : Forall2 (fun p r => exists b, contents ex_dir p = IoOk b /\ is_record ex_env b (fst r) (snd r))
  [name02; name10] [((f64_of_Z 1, f64_of_Z 2, f64_of_Z 3), (f32_of_Z 4, f32_of_Z 5, f32_of_Z 6));
                    ((f64_of_Z 2, f64_of_Z 2, f64_of_Z 3), (f32_of_Z 4, f32_of_Z 5, f32_of_Z 6))].
Proof. repeat constructor; [exists ex_line|exists ex_line']; (split; [reflexivity|apply ex_record]). Qed.

Lemma ex_indices : index_name 2 [x2e; x74] name10 10 /\ index_name 2 [x2e; x74] name02 2.
Proof. split; [exists [x31; x30]|exists [x30; x32]]; repeat split. Qed.

(** Without leading zeros 10 comes before 2. *)
Lemma unpadded : exists d ext a b, listing d = IoOk [IoOk b; IoOk a] /\ index_name 1 ext a 2 /\ index_name 2 ext b 10 /\
  seq_files_in_dir d = IoOk [b; a].
Proof.
  exists (mkDir (IoOk [IoOk name10; IoOk name2]) (contents ex_dir)), [x2e; x74], name2, name10.
  repeat split; [exists [x32]|exists [x31; x30]]; repeat split.
Qed.

(** A second file that is too short. *)
Definition ex_bad_dir : directory :=
  mkDir (IoOk [IoOk name10; IoOk name02; IoOk name2])
        (fun n => if name_leb n name02 then IoOk ex_bytes else if name_leb n name10 then IoOk [x00] else IoOk []).
Lemma ex_first_error : exists m, seq_files_in_dir ex_bad_dir = IoOk [name02; name10; name2] /\
  cloud_read Little (contents ex_bad_dir name02) = Ret (IoOk m) /\
  cloud_read Little (contents ex_bad_dir name10) = Ret (IoErr InvalidLength) /\
  cloud_read_from_dir Little ex_bad_dir false = ([name02; name10], Ret (IoErr InvalidLength)).
Proof.
  eexists. split; [reflexivity|]. split; [apply cloud_read_ok; reflexivity|]. split; [reflexivity|].
  pose proof (cloud_dir_spec Little ex_bad_dir) as H. change (seq_files_in_dir ex_bad_dir) with (IoOk [name02; name10; name2]) in H.
  cbn iota in H.
  assert (E1 : cloud_read Little (contents ex_bad_dir name10) = Ret (IoErr InvalidLength)) by reflexivity.
  assert (E2 : exists m, cloud_read Little (contents ex_bad_dir name02) = Ret (IoOk m)) by (eexists; apply cloud_read_ok; reflexivity).
  destruct E2 as [m0 E2].
  destruct H as [(ms & F & H)|(pre & p & post & ms & e & P & F & E & H)].
  - inversion F as [|? ? ? ? Q1 F1]; subst. inversion F1 as [|? ? ? ? Q2 F2]; subst. rewrite E1 in Q2. discriminate Q2.
  - destruct pre as [|n1 [|n2 pre]]; cbn [app] in P.
    + injection P as <- <-. rewrite E2 in E. discriminate E.
    + injection P as <- <- <-. rewrite E1 in E. injection E as <-. exact H.
    + injection P as <- <- P. inversion F as [|? ? ? ? Q1 F1]; subst. inversion F1 as [|? ? ? ? Q2 F2]; subst. rewrite E1 in Q2. discriminate Q2.
Qed.

(** A readable directory with a file whose name is the single byte 255. *)
Definition ex_odd_dir : directory := mkDir (IoOk [IoOk [xff]]) (fun _ => IoOk ex_bytes).
Lemma print_matters : exists d m, cloud_read_from_dir Little d false = ([[xff]], Ret (IoOk [m])) /\
  cloud_read_from_dir Little d true = ([], Panic).
Proof.
  exists ex_odd_dir. eexists. split.
  - unfold cloud_read_from_dir. change (seq_files_in_dir ex_odd_dir) with (IoOk [[xff]]). fold (cloud_step Little).
    eapply read_files_ok, cloud_steps. constructor; [|constructor]. cbn [contents ex_odd_dir]. apply cloud_read_ok. reflexivity.
  - eapply cloud_print_panics; [reflexivity|]. rewrite <- utf8_text. discriminate.
Qed.
Definition ex_odd_oxt : directory := mkDir (IoOk [IoOk [xff]]) (fun _ => IoOk ex_line).
Lemma print_matters_oxt : exists d pose, oxt_read_from_dir ex_env d false = ([[xff]], Ret (IoOk [pose])) /\
  oxt_read_from_dir ex_env d true = ([], Panic).
Proof.
  exists ex_odd_oxt. eexists. split; [|reflexivity].
  eapply (oxt_dir_poses ex_env ex_odd_oxt [[xff]] [((f64_of_Z 1, f64_of_Z 2, f64_of_Z 3), (f32_of_Z 4, f32_of_Z 5, f32_of_Z 6))]); [reflexivity|].
  constructor; [|constructor]. exists ex_line. split; [reflexivity|apply ex_record].
Qed.
Lemma ex_text_names : Forall is_text [name02; name10].
Proof. repeat (apply Forall_cons; [rewrite <- utf8_text; reflexivity|]). constructor. Qed.

Lemma ex_names_opened : fst (cloud_read_from_dir Little ex_bad_dir false) = [name02; name10] /\ Forall is_text [name02; name10] /\
  (exists d, fst (oxt_read_from_dir ex_env d false) = [] ++ [xff] :: []) /\ ~ is_text [xff].
Proof.
  destruct ex_first_error as (m & _ & _ & _ & H). rewrite H. split; [reflexivity|]. split; [exact ex_text_names|]. split.
  - destruct print_matters_oxt as (d & pose & P & _). exists d. rewrite P. reflexivity.
  - rewrite <- utf8_text. discriminate.
Qed.

(** ** GPS: Karlsruhe and a point nearby *)
Definition karlsruhe : gps := (f64_of_Z 49, f64_of_Z 8, f64_of_Z 115).
Definition nearby : gps := (f64_of 25089 (-9), f64_of 4097 (-9), f64_of_Z 116).

Lemma small_Z : forall n z, (Z.abs z <= n)%Z -> (n <= 2 ^ 53)%Z -> at_most n (f64_of_Z z).
Proof.
  intros n z H Hn. destruct (f64_of_Z_exact z ltac:(lia)) as [F R]. split; [exact F|]. rewrite R, <- abs_IZR. now apply IZR_le.
Qed.
Lemma real64_SF : forall (x : f64) s m e, B2SF x = SpecFloat.S754_finite s m e -> real64 x = F2R (Float radix2 (cond_Zopp s (Zpos m)) e) /\ finite64 x.
Proof. intros [s|s| |s m e v] s' m' e' H; try discriminate H. cbn in H. injection H as -> -> ->. split; reflexivity. Qed.
Lemma ex_gps : (at_most 90 (fst (fst karlsruhe)) /\ at_most 360 (snd (fst karlsruhe)) /\ at_most (2 ^ 80) (snd karlsruhe)) /\
  (at_most 90 (fst (fst nearby)) /\ at_most 360 (snd (fst nearby)) /\ at_most (2 ^ 80) (snd nearby)) /\
  real64 (fst (fst nearby)) = (25089 / 512)%R.
Proof.
  assert (A80 : forall z, (Z.abs z <= 1000)%Z -> at_most (2 ^ 80) (f64_of_Z z)).
  { intros z H. destruct (small_Z 1000 z H ltac:(lia)) as [F B]. split; [exact F|]. eapply Rle_trans; [exact B|]. apply IZR_le. lia. }
  assert (V1 : B2SF (f64_of 25089 (-9)) = SpecFloat.S754_finite false 6896411807318016 (-47)) by (vm_compute; reflexivity).
  assert (V2 : B2SF (f64_of 4097 (-9)) = SpecFloat.S754_finite false 4504699138998272 (-49)) by (vm_compute; reflexivity).
  apply real64_SF in V1, V2. destruct V1 as [R1 F1], V2 as [R2 F2].
  assert (R1' : real64 (f64_of 25089 (-9)) = (25089 / 512)%R).
  { rewrite R1. unfold F2R. cbn [Fnum Fexp cond_Zopp]. change (bpow radix2 (-47)) with (/ 140737488355328)%R. lra. }
  assert (R2' : real64 (f64_of 4097 (-9)) = (4097 / 512)%R).
  { rewrite R2. unfold F2R. cbn [Fnum Fexp cond_Zopp]. change (bpow radix2 (-49)) with (/ 562949953421312)%R. lra. }
  unfold karlsruhe, nearby. cbn [fst snd].
  split; [|split; [|exact R1']].
  - repeat split; try (apply A80 || apply small_Z); try lia; apply small_Z || apply A80; lia.
  - split; [split; [exact F1|rewrite R1'; rewrite Rabs_right; lra]|].
    split; [split; [exact F2|rewrite R2'; rewrite Rabs_right; lra]|]. apply A80. lia.
Qed.
