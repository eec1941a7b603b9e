(** C87: numbers in text files. *)
From Coq Require Import Strings.String Strings.Byte ZArith List Bool Reals Lia Lra.
From Flocq Require Import Core BinarySingleNaN.
From Verif Require Import Base F32 F64 Arith Geom Kitti Spec SpecKitti Number SpecNumber NumberProofs NumberRoundProofs NumberReadProofs ExamplesNumber.
Open Scope Z_scope.

(** For every format; f64 is 53, 1024 and f32 is 24, 128. *)
Theorem C87_reads : forall prec emax (P : FLX.Prec_gt_0 prec) (E : Prec_lt_emax prec emax) s neg v, number_text s neg v ->
  exists x, parse_float prec emax s = Some x /\ rounds_to x neg v.
Proof. exact @parse_reads. Qed.
Print Assumptions C87_reads.

(** A text denotes one number at most. *)
Theorem C87_unambiguous : forall s neg v neg' v', number_text s neg v -> number_text s neg' v' -> neg = neg' /\ v = v'.
Proof. exact text_unique. Qed.
Print Assumptions C87_unambiguous.

Theorem C87_accepts : forall prec emax (P : FLX.Prec_gt_0 prec) (E : Prec_lt_emax prec emax) s, parse_float prec emax s <> None <->
  (exists neg v, number_text s neg v) \/
  (exists sg neg w, s = sg ++ w /\ sign_text sg neg /\ (spells w text_inf \/ spells w text_infinity \/ spells w text_nan)).
Proof. exact @parse_accepts. Qed.
Print Assumptions C87_accepts.

Theorem C87_infinite : forall prec emax (P : FLX.Prec_gt_0 prec) (E : Prec_lt_emax prec emax) sg neg w, sign_text sg neg ->
  spells w text_inf \/ spells w text_infinity -> parse_float prec emax (sg ++ w) = Some (B754_infinity neg).
Proof. exact @parse_inf. Qed.
Print Assumptions C87_infinite.

Theorem C87_nan : forall prec emax (P : FLX.Prec_gt_0 prec) (E : Prec_lt_emax prec emax) sg neg w, sign_text sg neg ->
  spells w text_nan -> parse_float prec emax (sg ++ w) = Some B754_nan.
Proof. exact @parse_nan. Qed.
Print Assumptions C87_nan.

(** No blanks, line breaks, commas, ... *)
Theorem C87_characters : forall prec emax (P : FLX.Prec_gt_0 prec) (E : Prec_lt_emax prec emax) s c, In c s -> ~ plain c ->
  parse_float prec emax s = None.
Proof. exact @parse_rejects. Qed.
Print Assumptions C87_characters.

Theorem C87_closest : forall prec emax (P : FLX.Prec_gt_0 prec) (E : Prec_lt_emax prec emax) s neg v (x : binary_float prec emax),
  number_text s neg v -> parse_float prec emax s = Some x -> is_finite x = true ->
  forall y : binary_float prec emax, (Rabs (B2R x - signed neg v) <= Rabs (B2R y - signed neg v))%R.
Proof. exact @closest. Qed.
Print Assumptions C87_closest.

Theorem C87_monotone : forall prec emax (P : FLX.Prec_gt_0 prec) (E : Prec_lt_emax prec emax) s s' neg neg' v v',
  number_text s neg v -> number_text s' neg' v' -> (signed neg v <= signed neg' v')%R ->
  exists x y, parse_float prec emax s = Some x /\ parse_float prec emax s' = Some y /\ Bleb x y = true.
Proof. exact @monotone. Qed.
Print Assumptions C87_monotone.

(** 17 significant digits for an f64 and 9 for an f32 meet the third condition. *)
Theorem C87_read_back : forall prec emax (P : FLX.Prec_gt_0 prec) (E : Prec_lt_emax prec emax) (x : binary_float prec emax) s neg v,
  is_finite x = true -> (bpow radix2 (2 - emax) <= Rabs (B2R x))%R ->
  number_text s neg v -> (Rabs (signed neg v - B2R x) < bpow radix2 (- prec - 1) * Rabs (B2R x))%R ->
  parse_float prec emax s = Some x.
Proof. exact @read_back. Qed.
Print Assumptions C87_read_back.

Example C87_example : (number_text t_plain false (197 / 4) /\ number_text t_zeros false (197 / 4) /\
   number_text t_exp false (197 / 4) /\ number_text t_milli true (/ 1000)) /\
  (option_map B2SF (parse_float 53 1024 t_plain) = Some (SpecFloat.S754_finite false 6931321301499904 (-47)) /\
   parse_float 53 1024 (txt "1e400") = Some (B754_infinity false) /\ parse_float 53 1024 (txt "-.5e-400") = Some (B754_zero true) /\
   option_map B2SF (parse_float 24 128 (txt "16777217")) = Some (SpecFloat.S754_finite false 8388608 1) /\
   option_map B2SF (parse_float 24 128 (txt "16777219")) = Some (SpecFloat.S754_finite false 8388610 1)) /\
  (spells (txt "iNF") text_inf /\ spells (txt "Infinity") text_infinity /\ spells (txt "NaN") text_nan /\ sign_text (txt "-") true) /\
  (parse_float 53 1024 [] = None /\ parse_float 53 1024 (txt ".") = None /\ parse_float 53 1024 (txt "1e") = None /\
   parse_float 53 1024 (txt "1,5") = None /\ parse_float 53 1024 (txt "0x10") = None /\ In x20 (txt "1 ") /\ ~ plain x20).
Proof. exact (conj ex_texts (conj ex_values (conj ex_words ex_refused))). Qed.

Example C87_read_back_example : is_finite a_tenth = true /\ (bpow radix2 (2 - 1024) <= Rabs (B2R a_tenth))%R /\
  number_text t_tenth false (10000000000000001 / 100000000000000000) /\
  (Rabs (signed false (10000000000000001 / 100000000000000000) - B2R a_tenth) < bpow radix2 (- (53) - 1) * Rabs (B2R a_tenth))%R.
Proof. exact ex_tenth. Qed.

(** Which files are accepted. *)
Theorem C87_records : forall (Rot : Type) (c : f64 -> f64) (rot : f32 -> f32 -> f32 -> Rot) b origin,
  (exists r, oxt_read (std_env c rot) (IoOk b) origin = IoOk r) <->
  is_text b /\ exists fs, fields_of b fs /\ (6 <= length fs)%nat /\
    forall i, (i < 6)%nat ->
      (exists neg v, number_text (nth i fs []) neg v) \/
      (exists sg neg w, nth i fs [] = sg ++ w /\ sign_text sg neg /\
         (spells w text_inf \/ spells w text_infinity \/ spells w text_nan)).
Proof. exact @std_accepts. Qed.
Print Assumptions C87_records.

Theorem C87_record : forall (Rot : Type) (c : f64 -> f64) (rot : f32 -> f32 -> f32 -> Rot)
    b t0 t1 t2 t3 t4 t5 more n0 n1 n2 n3 n4 n5 v0 v1 v2 v3 v4 v5, is_text b ->
  fields_of b (t0 :: t1 :: t2 :: t3 :: t4 :: t5 :: more) ->
  number_text t0 n0 v0 -> number_text t1 n1 v1 -> number_text t2 n2 v2 ->
  number_text t3 n3 v3 -> number_text t4 n4 v4 -> number_text t5 n5 v5 ->
  exists (lat lon alt : f64) (roll pitch yaw : f32),
    rounds_to lat n0 v0 /\ rounds_to lon n1 v1 /\ rounds_to alt n2 v2 /\
    rounds_to roll n3 v3 /\ rounds_to pitch n4 v4 /\ rounds_to yaw n5 v5 /\
    forall origin, oxt_read (std_env c rot) (IoOk b) origin =
      IoOk (match origin with
            | Some o => ((gps_to_meters c (lat, lon, alt) o, rot roll pitch yaw), o)
            | None => ((zero_translation, rot roll pitch yaw), (lat, lon, alt))
            end).
Proof. exact @std_record. Qed.
Print Assumptions C87_record.

Example C87_record_example : is_text line1 /\
  fields_of line1 (t_plain :: txt "8.4" :: txt "115.5" :: txt "0" :: txt "0" :: t_milli :: []) /\
  number_text t_plain false (197 / 4) /\ number_text (txt "8.4") false (42 / 5) /\ number_text (txt "115.5") false (231 / 2) /\
  number_text (txt "0") false 0 /\ number_text t_milli true (/ 1000).
Proof. exact ex_line1. Qed.

(** From the numbers in the files to metres, for latitudes up to 90 degrees and altitudes up
    to 1000 km: relative error 2^-23, and 2^-27 m (8 nm) or 2^-30 m (1 nm). *)
Theorem C87_positions : forall (Rot : Type) (c : f64 -> f64) (rot : f32 -> f32 -> f32 -> Rot) d p0 ps lat0 lon0 alt0 rs,
  seq_files_in_dir d = IoOk (p0 :: ps) ->
  Forall2 (fun p r => exists b, contents d p = IoOk b /\ gives b (fst (fst r)) (snd (fst r)) (snd r))
    (p0 :: ps) ((lat0, lon0, alt0) :: rs) ->
  Forall (fun r => Rabs (fst (fst r)) <= 90 /\ Rabs (snd r) <= 1000000)%R ((lat0, lon0, alt0) :: rs) ->
  exists rot0 poses, oxt_read_from_dir (std_env c rot) d false = (p0 :: ps, Ret (IoOk (((f0, f0, f0), rot0) :: poses))) /\
    Forall2 (fun r pose =>
      let '(x, y, z) := fst pose in
      let north := ((fst (fst r) - lat0) * 40008000 / 360)%R in
      let up := (snd r - alt0)%R in
      finite y /\ (Rabs (real y - north) <= bpow radix2 (-23) * Rabs north + bpow radix2 (-27))%R /\
      finite z /\ (Rabs (real z - up) <= bpow radix2 (-23) * Rabs up + bpow radix2 (-30))%R) rs poses.
Proof. exact @directory_positions. Qed.
Print Assumptions C87_positions.

Example C87_positions_example : seq_files_in_dir dir2 = IoOk [txt "0.txt"; txt "1.txt"] /\
  Forall2 (fun p r => exists b, contents dir2 p = IoOk b /\ gives b (fst (fst r)) (snd (fst r)) (snd r))
    [txt "0.txt"; txt "1.txt"] [(197 / 4, 42 / 5, 231 / 2); (99 / 2, 42 / 5, 116)]%R /\
  Forall (fun r : R * R * R => Rabs (fst (fst r)) <= 90 /\ Rabs (snd r) <= 1000000)%R [(197 / 4, 42 / 5, 231 / 2); (99 / 2, 42 / 5, 116)]%R.
Proof. exact ex_dir2. Qed.

(** A line break right after the sixth number. *)
Theorem C87_line_break : forall (Rot : Type) (c : f64 -> f64) (rot : f32 -> f32 -> f32 -> Rot) b t0 t1 t2 t3 t4 t5 origin,
  is_text b -> fields_of b [t0; t1; t2; t3; t4; t5 ++ [x0a]] -> oxt_read (std_env c rot) (IoOk b) origin = IoErr InvalidFloat.
Proof. exact @newline_rejected. Qed.
Print Assumptions C87_line_break.

Example C87_line_break_example : is_text line_break /\ fields_of line_break [[x31]; [x32]; [x33]; [x34]; [x35]; [x36] ++ [x0a]].
Proof. exact ex_break. Qed.

(** A first record that says its latitude is not a number is accepted, and then no later
    record has a northward position. *)
Theorem C87_nan_origin : forall (Rot : Type) (c : f64 -> f64) (rot : f32 -> f32 -> f32 -> Rot)
    b sg neg w t1 t2 t3 t4 t5 more v1 v2 v3 v4 v5, is_text b ->
  fields_of b ((sg ++ w) :: t1 :: t2 :: t3 :: t4 :: t5 :: more) -> sign_text sg neg -> spells w text_nan ->
  field_value t1 v1 -> field_value t2 v2 -> field_value t3 v3 -> field_value t4 v4 -> field_value t5 v5 ->
  exists lon alt r, oxt_read (std_env c rot) (IoOk b) None = IoOk ((zero_translation, r), (B754_nan, lon, alt)) /\
    forall b' pose o, oxt_read (std_env c rot) (IoOk b') (Some (B754_nan, lon, alt)) = IoOk (pose, o) -> snd (fst (fst pose)) = B754_nan.
Proof. exact @nan_record. Qed.
Print Assumptions C87_nan_origin.

Example C87_nan_origin_example : is_text line_nan /\
  fields_of line_nan (([] ++ txt "NaN") :: txt "8.4" :: txt "115.5" :: txt "0" :: txt "0" :: txt "0" :: []) /\
  sign_text [] false /\ spells (txt "NaN") text_nan /\ field_value (txt "8.4") (42 / 5) /\ field_value (txt "115.5") (231 / 2) /\ field_value (txt "0") 0.
Proof. exact ex_line_nan. Qed.
