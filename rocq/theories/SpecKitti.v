(** What the properties of the KITTI readers talk about. *)
From Coq Require Import ZArith List Bool Reals Permutation Sorted Strings.Byte.
From Flocq Require Import Core BinarySingleNaN.
From Flocq Require Binary Bits.
From Verif Require Import Base F32 F64 Arith Geom Kitti Spec.
Open Scope Z_scope.

(** ** Binary point clouds *)

(** The 32-bit word stored at offset [off]. *)
Definition byte_at (b : bytes) (i : nat) : Z := byte_val (nth i b x00).
Definition word_at (bo : byte_order) (b : bytes) (off : nat) : Z :=
  match bo with
  | Little => byte_at b off + 2^8 * byte_at b (off + 1) + 2^16 * byte_at b (off + 2) + 2^24 * byte_at b (off + 3)
  | Big => byte_at b (off + 3) + 2^8 * byte_at b (off + 2) + 2^16 * byte_at b (off + 1) + 2^24 * byte_at b off
  end.

(** The IEEE-754 binary32 number with bit pattern [w]. *)
Definition ieee_means (w : Z) (x : f32) : Prop :=
  let s := 2^31 <=? w in
  let e := (w / 2^23) mod 2^8 in
  let f := w mod 2^23 in
  if e =? 255 then (if f =? 0 then x = B754_infinity s else x = B754_nan)
  else finite x /\ Bsign x = s /\
    real x = ((if s then -1 else 1) *
      (if Z.eqb e 0 then IZR f * bpow radix2 (-149) else IZR (2^23 + f) * bpow radix2 (e - 150)))%R.

(** Writing a word, a number and a record of four numbers. *)
Definition byte_of (z : Z) : byte :=
  match Byte.of_N (Z.to_N (z mod 256)) with Some b => b | None => x00 end.
Definition put_word (bo : byte_order) (w : Z) : bytes :=
  let l := [byte_of w; byte_of (w / 2^8); byte_of (w / 2^16); byte_of (w / 2^24)] in
  match bo with Little => l | Big => rev l end.
Definition bits_of_f32 (x : f32) : Z := Bits.bits_of_b32 (Binary.BSN2B 24 128 Bits.default_nan_pl32 x).
Definition put_record (bo : byte_order) (p : point) (intensity : Z) : bytes :=
  flat_map (fun x => put_word bo (bits_of_f32 x)) p ++ put_word bo intensity.
Definition put_cloud (bo : byte_order) (l : list (point * Z)) : bytes :=
  flat_map (fun r => put_record bo (fst r) (snd r)) l.

(** ** Text *)

(** Unicode scalar values and their UTF-8 encoding. *)
Definition scalar (c : Z) : Prop := 0 <= c < 0xD800 \/ 0xE000 <= c <= 0x10FFFF.
Definition utf8_encode (c : Z) : list Z :=
  if c <? 0x80 then [c]
  else if c <? 0x800 then [0xC0 + c / 2^6; 0x80 + c mod 2^6]
  else if c <? 0x10000 then [0xE0 + c / 2^12; 0x80 + (c / 2^6) mod 2^6; 0x80 + c mod 2^6]
  else [0xF0 + c / 2^18; 0x80 + (c / 2^12) mod 2^6; 0x80 + (c / 2^6) mod 2^6; 0x80 + c mod 2^6].
Definition is_text (b : bytes) : Prop :=
  exists cs, Forall scalar cs /\ map byte_val b = flat_map utf8_encode cs.

(** [fs] are the pieces of [b] between single spaces. *)
Fixpoint join_spaces (fs : list bytes) : bytes :=
  match fs with
  | [] => []
  | [f] => f
  | f :: fs' => f ++ x20 :: join_spaces fs'
  end.
Definition fields_of (b : bytes) (fs : list bytes) : Prop :=
  fs <> [] /\ join_spaces fs = b /\ Forall (fun f => ~ In x20 f) fs.

(** The content [b] of a file is a record with GPS position [g] and rotation [rot]. *)
Definition is_record {Rot} (env : oxt_env Rot) (b : bytes) (g : gps) (rot : Rot) : Prop :=
  is_text b /\ exists f0 f1 f2 f3 f4 f5 more lat lon alt roll pitch yaw,
    fields_of b (f0 :: f1 :: f2 :: f3 :: f4 :: f5 :: more) /\
    parse64 env f0 = Some lat /\ parse64 env f1 = Some lon /\ parse64 env f2 = Some alt /\
    parse32 env f3 = Some roll /\ parse32 env f4 = Some pitch /\ parse32 env f5 = Some yaw /\
    g = (lat, lon, alt) /\ rot = from_euler_angles env roll pitch yaw.

(** ** Directories *)

(** The order of names: [a] is a prefix of [b], or smaller at the first difference. *)
Definition name_before (a b : name) : Prop :=
  (exists s, b = a ++ s) \/
  (exists p x y s t, a = p ++ x :: s /\ b = p ++ y :: t /\ byte_val x < byte_val y).

(** [k] decimal digits with value [n], followed by [ext]. *)
Fixpoint decimal (n : Z) (ds : bytes) : option Z :=
  match ds with
  | [] => Some n
  | d :: ds' => if (48 <=? byte_val d) && (byte_val d <=? 57) then decimal (10 * n + (byte_val d - 48)) ds' else None
  end.
Definition index_name (k : nat) (ext : bytes) (nm : name) (n : Z) : Prop :=
  exists ds, nm = ds ++ ext /\ length ds = k /\ decimal 0 ds = Some n.

(** ** GPS *)
Definition real64 (x : f64) : R := B2R x.
Definition finite64 (x : f64) : Prop := is_finite x = true.
(** A finite number of absolute value at most [n]. *)
Definition at_most (n : Z) (x : f64) : Prop := finite64 x /\ (Rabs (real64 x) <= IZR n)%R.
(** [x] is the f32 nearest to [v] up to the rounding of a few f64 operations. *)
Definition nearly (x : f32) (v : R) : Prop :=
  finite x /\ (Rabs (real x - v) <= bpow radix2 (-23) * Rabs v + bpow radix2 (-149))%R.
(** A cosine that is accurate to 2^-30 on small arguments. *)
Definition cos_accurate (c : f64 -> f64) : Prop :=
  forall y, at_most 16 y -> finite64 (c y) /\ (Rabs (real64 (c y) - cos (real64 y)) <= bpow radix2 (-30))%R.
