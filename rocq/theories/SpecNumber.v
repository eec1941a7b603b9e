(** What the properties of numbers in text files talk about. *)
From Coq Require Import ZArith List Bool Reals Strings.Byte.
From Flocq Require Import Core BinarySingleNaN.
From Verif Require Import Base F32 F64 Kitti SpecKitti.
Open Scope Z_scope.

(** An optional sign. *)
Definition sign_text (t : bytes) (neg : bool) : Prop :=
  (t = [] /\ neg = false) \/ (t = [x2b] /\ neg = false) \/ (t = [x2d] /\ neg = true).

(** Nothing, or e or E and a number with an optional sign. *)
Definition exponent_text (t : bytes) (x : Z) : Prop :=
  (t = [] /\ x = 0) \/
  exists c sg neg ds n, t = c :: sg ++ ds /\ (c = x65 \/ c = x45) /\ sign_text sg neg /\
    ds <> [] /\ decimal 0 ds = Some n /\ x = (if neg then - n else n).

(** [s] is the decimal notation of the number [v] >= 0, or of [-v] when [neg]: digits, maybe
    with a point before, between or after them, and an optional exponent. *)
Definition number_text (s : bytes) (neg : bool) (v : R) : Prop :=
  exists sg ds fs body xt x i f,
    s = sg ++ body ++ xt /\ sign_text sg neg /\
    ((body = ds /\ fs = []) \/ body = ds ++ x2e :: fs) /\ ds ++ fs <> [] /\
    decimal 0 ds = Some i /\ decimal 0 fs = Some f /\ exponent_text xt x /\
    v = ((IZR i + IZR f / 10 ^ length fs) * powerRZ 10 x)%R.

(** [s] spells [word] (given in small letters), in small or capital letters. *)
Definition spells (s word : bytes) : Prop :=
  Forall2 (fun c l => c = l \/ (byte_val l = byte_val c + 32 /\ 65 <= byte_val c <= 90)) s word.
Definition text_inf : bytes := [x69; x6e; x66].
Definition text_infinity : bytes := [x69; x6e; x66; x69; x6e; x69; x74; x79].
Definition text_nan : bytes := [x6e; x61; x6e].

(** [x] is the number nearest to [v] >= 0 (to [-v] when [neg]), the even one of two equally
    near ones, and infinite from the middle between the largest number and the power of two
    above it on. *)
Definition rounds_to {prec emax} (x : binary_float prec emax) (neg : bool) (v : R) : Prop :=
  Bsign x = neg /\ is_nan x = false /\
  ((v < bpow radix2 emax - bpow radix2 (emax - prec - 1))%R ->
     is_finite x = true /\
     B2R x = (if neg then - round radix2 (FLT_exp (3 - emax - prec) prec) ZnearestE v
              else round radix2 (FLT_exp (3 - emax - prec) prec) ZnearestE v)%R) /\
  ((bpow radix2 emax - bpow radix2 (emax - prec - 1) <= v)%R -> x = B754_infinity neg).

(** [-v] or [v] *)
Definition signed (neg : bool) (v : R) : R := if neg then (- v)%R else v.

(** The characters that occur in numbers: signs, points, digits and letters. *)
Definition plain (c : byte) : Prop :=
  c = x2b \/ c = x2d \/ c = x2e \/ 48 <= byte_val c <= 57 \/ 65 <= byte_val c <= 90 \/ 97 <= byte_val c <= 122.

(** A field with the number [v]. *)
Definition field_value (s : bytes) (v : R) : Prop :=
  exists neg a, number_text s neg a /\ v = signed neg a.

(** The content [b] of a file gives this latitude, longitude and altitude, and some angles. *)
Definition gives (b : bytes) (lat lon alt : R) : Prop :=
  is_text b /\ exists f0 f1 f2 f3 f4 f5 more roll pitch yaw,
    fields_of b (f0 :: f1 :: f2 :: f3 :: f4 :: f5 :: more) /\
    field_value f0 lat /\ field_value f1 lon /\ field_value f2 alt /\
    field_value f3 roll /\ field_value f4 pitch /\ field_value f5 yaw.
