(** C48-C56: the KITTI readers. *)
From Coq Require Import ZArith List Bool Reals Lia Lra Permutation Sorted Strings.Byte.
From Flocq Require Import Core BinarySingleNaN.
From Verif Require Import Base F32 F64 Arith Geom Kitti Spec SpecKitti KittiProofs OxtProofs DirProofs GpsProofs ExamplesKitti.
Open Scope Z_scope.

(** For any way [of_bits] to read a word: [fun w => w] gives the bit patterns themselves. *)
Theorem C48_words : forall (T : Type) (of_bits : Z -> T) bo b,
  (length b mod 16 <> 0 -> read_values of_bits bo (IoOk b) = IoErr InvalidLength)%nat /\
  (length b mod 16 = 0 -> exists vals, read_values of_bits bo (IoOk b) = IoOk (length b / 16, vals) /\
     length vals = 3 * (length b / 16) /\
     forall i k, i < length b / 16 -> k < 3 ->
       nth_error vals (3 * i + k) = Some (of_bits (word_at bo b (16 * i + 4 * k))))%nat.
Proof. exact @read_values_spec. Qed.
Print Assumptions C48_words.

Theorem C48_cloud : forall bo b,
  (length b mod 16 <> 0 -> cloud_read bo (IoOk b) = Ret (IoErr InvalidLength))%nat /\
  (length b mod 16 = 0 -> exists m, cloud_read bo (IoOk b) = Ret (IoOk m) /\ matrix_ok m /\ nrows m = 3 /\
     pc_points m = map (fun i => [f32_of_bits (word_at bo b (16 * i)); f32_of_bits (word_at bo b (16 * i + 4));
                                  f32_of_bits (word_at bo b (16 * i + 8))]) (seq 0 (length b / 16)))%nat.
Proof. exact cloud_read_spec. Qed.
Print Assumptions C48_cloud.

(** The words are read as IEEE-754 numbers. *)
Theorem C48_numbers : forall w, 0 <= w < 2^32 -> ieee_means w (f32_of_bits w).
Proof. exact f32_of_bits_ieee. Qed.
Print Assumptions C48_numbers.

(** Nothing is lost but the payload of a NaN. *)
Theorem C48_bits : forall w, 0 <= w < 2^32 -> is_nan (f32_of_bits w) = false -> bits_of_f32 (f32_of_bits w) = w.
Proof. exact bits_exact. Qed.
Print Assumptions C48_bits.

Example C48_example : ((length ex_bytes mod 16 = 0)%nat /\ (length (x00 :: ex_bytes) mod 16 <> 0)%nat /\
  exists m, cloud_read Little (IoOk ex_bytes) = Ret (IoOk m) /\ pc_points m = ex_points) /\
  (word_at Big ex_bytes 0 = 0x803f /\ word_at Little ex_bytes 0 = 0x3f800000) /\
  (is_nan (f32_of_bits 0x7fc00000) = true /\ is_nan (f32_of_bits 0x3f800001) = false).
Proof. exact (conj ex_decode (conj ex_big ex_nan)). Qed.

Theorem C49_round_trip : forall bo l, Forall (fun r => length (fst r) = 3%nat) l ->
  exists m, cloud_read bo (IoOk (put_cloud bo l)) = Ret (IoOk m) /\ nrows m = 3%nat /\ pc_points m = map fst l.
Proof. exact cloud_round_trip. Qed.
Print Assumptions C49_round_trip.

Example C49_example : Forall (fun r : point * Z => length (fst r) = 3%nat) [(nth 0 ex_points [], 0x41100000); (nth 1 ex_points [], 0)] /\
  put_cloud Little [(nth 0 ex_points [], 0x41100000); (nth 1 ex_points [], 0)] = ex_bytes.
Proof. exact ex_encoding. Qed.

(** What the standard library's check accepts is exactly text. *)
Theorem C50_utf8 : forall b, utf8_valid b = true <-> is_text b.
Proof. exact utf8_text. Qed.
Print Assumptions C50_utf8.

(** The pieces exist and are unique. *)
Theorem C50_fields : forall b fs, fields_of b fs <-> fs = split_spaces b.
Proof. exact fields_unique. Qed.
Print Assumptions C50_fields.

Theorem C50_accepts : forall (Rot : Type) (env : oxt_env Rot) b origin,
  (exists r, oxt_read env (IoOk b) origin = IoOk r) <->
  is_text b /\ exists fs, fields_of b fs /\ (6 <= length fs)%nat /\
    (forall i, (i < 3)%nat -> parse64 env (nth i fs []) <> None) /\
    (forall i, (3 <= i < 6)%nat -> parse32 env (nth i fs []) <> None).
Proof. exact @read_accepts. Qed.
Print Assumptions C50_accepts.

Theorem C50_errors : forall (Rot : Type) (env : oxt_env Rot) b origin e, oxt_read env (IoOk b) origin = IoErr e ->
  (e = InvalidUtf8 /\ ~ is_text b) \/
  (is_text b /\ exists fs, fields_of b fs /\
     ((e = InvalidLength /\ (length fs < 6)%nat) \/
      (e = InvalidFloat /\ (6 <= length fs)%nat /\
       ((exists i, (i < 3)%nat /\ parse64 env (nth i fs []) = None) \/
        (exists i, (3 <= i < 6)%nat /\ parse32 env (nth i fs []) = None))))).
Proof. exact @read_fails. Qed.
Print Assumptions C50_errors.

Theorem C50_later_fields : forall (Rot : Type) (env : oxt_env Rot) b b' fs fs' origin,
  is_text b -> is_text b' -> fields_of b fs -> fields_of b' fs' -> firstn 6 fs = firstn 6 fs' ->
  oxt_read env (IoOk b) origin = oxt_read env (IoOk b') origin.
Proof. exact @later_fields. Qed.
Print Assumptions C50_later_fields.

Example C50_example : (is_text ex_line /\ ~ is_text [x31; xff] /\ ~ is_text [xc0; x80] /\ ~ is_text [xed; xa0; x80]) /\
  (fields_of ex_line [[x31]; [x32]; [x33]; [x34]; [x35]; [x36]; [xc3; xb1]] /\
   fields_of ex_line6 [[x31]; [x32]; [x33]; [x34]; [x35]; [x36]] /\ fields_of [x31; x20; x20; x32] [[x31]; []; [x32]]) /\
  (forall o, oxt_read ex_env (IoOk [x31; x20; x20; x32]) o = IoErr InvalidLength /\
   oxt_read ex_env (IoOk (x31 :: ex_line)) o = IoErr InvalidFloat /\ oxt_read ex_env (IoOk [xff]) o = IoErr InvalidUtf8).
Proof. exact (conj ex_is_text (conj ex_fields ex_rejected)). Qed.

(** One record: the rotation, the translation and the origin handed on. *)
Theorem C51_record : forall (Rot : Type) (env : oxt_env Rot) b g rot origin, is_record env b g rot ->
  oxt_read env (IoOk b) origin =
  IoOk (match origin with
        | Some o => ((gps_to_meters (cos64 env) g o, rot), o)
        | None => ((zero_translation, rot), g)
        end).
Proof. exact @record_read. Qed.
Print Assumptions C51_record.

Theorem C51_directory : forall (Rot : Type) (env : oxt_env Rot) d paths rs, seq_files_in_dir d = IoOk paths ->
  Forall2 (fun p r => exists b, contents d p = IoOk b /\ is_record env b (fst r) (snd r)) paths rs ->
  oxt_read_from_dir env d false = (paths, Ret (IoOk
    match rs with
    | [] => []
    | (g0, rot0) :: rest => ((f0, f0, f0), rot0) :: map (fun r => (gps_to_meters (cos64 env) (fst r) g0, snd r)) rest
    end)).
Proof. exact @oxt_dir_poses. Qed.
Print Assumptions C51_directory.

Example C51_example : (is_record ex_env ex_line (f64_of_Z 1, f64_of_Z 2, f64_of_Z 3) (f32_of_Z 4, f32_of_Z 5, f32_of_Z 6) /\
   is_record ex_env ex_line' (f64_of_Z 2, f64_of_Z 2, f64_of_Z 3) (f32_of_Z 4, f32_of_Z 5, f32_of_Z 6)) /\
  seq_files_in_dir ex_dir = IoOk [name02; name10] /\
  Forall2 (fun p r => exists b, contents ex_dir p = IoOk b /\ is_record ex_env b (fst r) (snd r))
  [name02; name10] [((f64_of_Z 1, f64_of_Z 2, f64_of_Z 3), (f32_of_Z 4, f32_of_Z 5, f32_of_Z 6));
                    ((f64_of_Z 2, f64_of_Z 2, f64_of_Z 3), (f32_of_Z 4, f32_of_Z 5, f32_of_Z 6))].
Proof. exact (conj ex_record (conj ex_listing ex_dir_records)). Qed.

Theorem C52_origin : forall c p0 p1 p2, finite64 p0 -> finite64 p1 -> finite64 p2 -> at_most 2 (c (B754_zero false)) ->
  let '(x, y, z) := gps_to_meters c (p0, p1, p2) (p0, p1, p2) in
  (finite x /\ real x = 0%R) /\ (finite y /\ real y = 0%R) /\ (finite z /\ real z = 0%R).
Proof. exact origin_is_zero. Qed.
Print Assumptions C52_origin.

Theorem C52_north : forall c p o, at_most 1000 (fst (fst p)) -> at_most 1000 (fst (fst o)) ->
  nearly (snd (fst (gps_to_meters c p o))) ((real64 (fst (fst p)) - real64 (fst (fst o))) * 40008000 / 360)%R.
Proof. exact north. Qed.
Print Assumptions C52_north.

Theorem C52_up : forall c p o, at_most (2 ^ 80) (snd p) -> at_most (2 ^ 80) (snd o) ->
  nearly (snd (gps_to_meters c p o)) (real64 (snd p) - real64 (snd o))%R.
Proof. exact up. Qed.
Print Assumptions C52_up.

(** The east component should be dlon * 40075160 * cos(latitude) / 360.  The code takes
    the cosine of the difference of the latitudes.  With every cosine that is right at
    zero, one degree east at latitude 60 comes out as 111 km instead of 56 km. *)
Theorem C52_east_refuted : exists p o, forall c, c (B754_zero false) = f64_of_Z 1 ->
  (real (fst (fst (gps_to_meters c p o))) > 111319 /\
   (real64 (snd (fst p)) - real64 (snd (fst o))) * (40075160 * cos (real64 (fst (fst p)) * PI / 180)) / 360 < 55660)%R.
Proof. exact (ex_intro _ lat60 (ex_intro _ lat60_origin east_wrong)). Qed.
Print Assumptions C52_east_refuted.

(** What is computed. *)
Theorem C52_east_computed : forall c p o, cos_accurate c ->
  at_most 90 (fst (fst p)) -> at_most 90 (fst (fst o)) -> at_most 360 (snd (fst p)) -> at_most 360 (snd (fst o)) ->
  let dlat := (real64 (fst (fst p)) - real64 (fst (fst o)))%R in
  let dlon := (real64 (snd (fst p)) - real64 (snd (fst o)))%R in
  let x := fst (fst (gps_to_meters c p o)) in
  finite x /\
  (Rabs (real x - dlon * 40075160 * cos (dlat * PI / 180) / 360) <=
   bpow radix2 (-23) * (Rabs dlon * 40075160 / 360) + bpow radix2 (-149))%R.
Proof. exact east. Qed.
Print Assumptions C52_east_computed.

(** Correct if the origin lies on the equator.  Missing: all other origins, where it is false. *)
Theorem C52_east_partial : forall c p o, cos_accurate c ->
  at_most 90 (fst (fst p)) -> finite64 (fst (fst o)) -> real64 (fst (fst o)) = 0%R ->
  at_most 360 (snd (fst p)) -> at_most 360 (snd (fst o)) ->
  let dlon := (real64 (snd (fst p)) - real64 (snd (fst o)))%R in
  let x := fst (fst (gps_to_meters c p o)) in
  finite x /\
  (Rabs (real x - dlon * (40075160 * cos (real64 (fst (fst p)) * PI / 180)) / 360) <=
   bpow radix2 (-23) * (Rabs dlon * 40075160 / 360) + bpow radix2 (-149))%R.
Proof. exact east_equator. Qed.
Print Assumptions C52_east_partial.

Example C52_example : cos_accurate nearest_cos /\
  ((at_most 90 (fst (fst karlsruhe)) /\ at_most 360 (snd (fst karlsruhe)) /\ at_most (2 ^ 80) (snd karlsruhe)) /\
   (at_most 90 (fst (fst nearby)) /\ at_most 360 (snd (fst nearby)) /\ at_most (2 ^ 80) (snd nearby)) /\
   real64 (fst (fst nearby)) = (25089 / 512)%R).
Proof. exact (conj nearest_cos_accurate ex_gps). Qed.

Theorem C53_listing : forall d,
  match listing d with
  | IoErr e => seq_files_in_dir d = IoErr e
  | IoOk entries =>
      (exists names l, entries = map (@IoOk name) names /\ seq_files_in_dir d = IoOk l /\
         Permutation l names /\ StronglySorted name_before l) \/
      (exists pre e post, entries = map (@IoOk name) pre ++ IoErr e :: post /\ seq_files_in_dir d = IoErr e)
  end.
Proof. exact listing_spec. Qed.
Print Assumptions C53_listing.

Theorem C53_any_order : forall d d' names names', listing d = IoOk (map (@IoOk name) names) ->
  listing d' = IoOk (map (@IoOk name) names') -> Permutation names names' -> seq_files_in_dir d = seq_files_in_dir d'.
Proof. exact listing_order. Qed.
Print Assumptions C53_any_order.

Example C53_example : listing ex_dir = IoOk [IoOk name10; IoOk name02] /\ seq_files_in_dir ex_dir = IoOk [name02; name10].
Proof. exact (conj eq_refl ex_listing). Qed.

Theorem C54_equal_length : forall d k ext names l, listing d = IoOk (map (@IoOk name) names) ->
  Forall (fun nm => exists n, index_name k ext nm n) names -> seq_files_in_dir d = IoOk l ->
  Permutation l names /\ StronglySorted (fun a b => forall n m, index_name k ext a n -> index_name k ext b m -> n <= m) l.
Proof. exact listing_index. Qed.
Print Assumptions C54_equal_length.

Theorem C54_names : forall k ext a b n m, index_name k ext a n -> index_name k ext b m -> (name_before a b <-> n <= m).
Proof. exact index_order. Qed.
Print Assumptions C54_names.

(** Without leading zeros: file 10 is listed before file 2. *)
Theorem C54_other_length : exists d ext a b, listing d = IoOk [IoOk b; IoOk a] /\ index_name 1 ext a 2 /\ index_name 2 ext b 10 /\
  seq_files_in_dir d = IoOk [b; a].
Proof. exact unpadded. Qed.
Print Assumptions C54_other_length.

Example C54_example : index_name 2 [x2e; x74] name10 10 /\ index_name 2 [x2e; x74] name02 2.
Proof. exact ex_indices. Qed.

(** The first component is the list of files opened. *)
Theorem C55_clouds : forall bo d,
  match seq_files_in_dir d with
  | IoErr e => cloud_read_from_dir bo d false = ([], Ret (IoErr e))
  | IoOk paths =>
      (exists ms, Forall2 (fun p m => cloud_read bo (contents d p) = Ret (IoOk m)) paths ms /\
         cloud_read_from_dir bo d false = (paths, Ret (IoOk ms))) \/
      (exists pre p post ms e, paths = pre ++ p :: post /\
         Forall2 (fun p m => cloud_read bo (contents d p) = Ret (IoOk m)) pre ms /\
         cloud_read bo (contents d p) = Ret (IoErr e) /\
         cloud_read_from_dir bo d false = (pre ++ [p], Ret (IoErr e)))
  end.
Proof. exact cloud_dir_spec. Qed.
Print Assumptions C55_clouds.

Theorem C55_poses : forall (Rot : Type) (env : oxt_env Rot) d,
  let holds p (r : gps * Rot) := exists b, contents d p = IoOk b /\ is_record env b (fst r) (snd r) in
  match seq_files_in_dir d with
  | IoErr e => oxt_read_from_dir env d false = ([], Ret (IoErr e))
  | IoOk paths =>
      (exists rs, Forall2 holds paths rs /\ exists poses, length poses = length paths /\
         map snd poses = map snd rs /\ oxt_read_from_dir env d false = (paths, Ret (IoOk poses))) \/
      (exists pre p post rs e, paths = pre ++ p :: post /\ Forall2 holds pre rs /\
         (forall origin, oxt_read env (contents d p) origin = IoErr e) /\
         oxt_read_from_dir env d false = (pre ++ [p], Ret (IoErr e)))
  end.
Proof. exact @oxt_dir_cases. Qed.
Print Assumptions C55_poses.

Example C55_example : exists m, seq_files_in_dir ex_bad_dir = IoOk [name02; name10; name2] /\
  cloud_read Little (contents ex_bad_dir name02) = Ret (IoOk m) /\
  cloud_read Little (contents ex_bad_dir name10) = Ret (IoErr InvalidLength) /\
  cloud_read_from_dir Little ex_bad_dir false = ([name02; name10], Ret (IoErr InvalidLength)).
Proof. exact ex_first_error. Qed.

(** Printing a file name that is not valid UTF-8 panics. *)
Theorem C56_clouds_refuted : exists d m, cloud_read_from_dir Little d false = ([[xff]], Ret (IoOk [m])) /\
  cloud_read_from_dir Little d true = ([], Panic).
Proof. exact print_matters. Qed.
Print Assumptions C56_clouds_refuted.

Theorem C56_poses_refuted : exists d pose, oxt_read_from_dir ex_env d false = ([[xff]], Ret (IoOk [pose])) /\
  oxt_read_from_dir ex_env d true = ([], Panic).
Proof. exact print_matters_oxt. Qed.
Print Assumptions C56_poses_refuted.

(** If all names are text, printing makes no difference.  Missing: other names, for
    which it is false. *)
Theorem C56_clouds_partial : forall bo d paths, seq_files_in_dir d = IoOk paths -> Forall is_text paths ->
  cloud_read_from_dir bo d true = cloud_read_from_dir bo d false.
Proof. exact cloud_print. Qed.
Print Assumptions C56_clouds_partial.

Theorem C56_poses_partial : forall (Rot : Type) (env : oxt_env Rot) d paths, seq_files_in_dir d = IoOk paths -> Forall is_text paths ->
  oxt_read_from_dir env d true = oxt_read_from_dir env d false.
Proof. exact oxt_print. Qed.
Print Assumptions C56_poses_partial.

(** Exactly: only the names of the files opened matter, and the first of them that is not
    text makes the program panic before opening it. *)
Theorem C56_clouds_exactly_partial : forall bo d, let opened := fst (cloud_read_from_dir bo d false) in
  (Forall is_text opened -> cloud_read_from_dir bo d true = cloud_read_from_dir bo d false) /\
  (forall pre p post, opened = pre ++ p :: post -> Forall is_text pre -> ~ is_text p -> cloud_read_from_dir bo d true = (pre, Panic)).
Proof. exact cloud_print_exact. Qed.
Print Assumptions C56_clouds_exactly_partial.

Theorem C56_poses_exactly_partial : forall (Rot : Type) (env : oxt_env Rot) d, let opened := fst (oxt_read_from_dir env d false) in
  (Forall is_text opened -> oxt_read_from_dir env d true = oxt_read_from_dir env d false) /\
  (forall pre p post, opened = pre ++ p :: post -> Forall is_text pre -> ~ is_text p -> oxt_read_from_dir env d true = (pre, Panic)).
Proof. exact @oxt_print_exact. Qed.
Print Assumptions C56_poses_exactly_partial.

Example C56_exactly_example : fst (cloud_read_from_dir Little ex_bad_dir false) = [name02; name10] /\ Forall is_text [name02; name10] /\
  (exists d, fst (oxt_read_from_dir ex_env d false) = [] ++ [xff] :: []) /\ ~ is_text [xff].
Proof. exact ex_names_opened. Qed.

Example C56_example : seq_files_in_dir ex_dir = IoOk [name02; name10] /\ Forall is_text [name02; name10].
Proof. exact (conj ex_listing ex_text_names). Qed.
