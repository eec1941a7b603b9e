(** Reading a floating-point number from text: [str::parse::<f64>] and [str::parse::<f32>],
    called from src/kitti/oxt_reader.rs:13.

    The standard library is not part of the repository.  The grammar is that of
    [f64::from_str] from Rust 1.55 on (core::num::dec2flt), the value the one its
    documentation promises: "the closest representable floating-point number to the number
    represented by src, following the same rules for rounding as for the results of
    primitive operations".  Simplifications: how the library finds that number is not
    modelled, and neither is that it stops reading an exponent at 65536 (which matters only
    for texts of tens of thousands of digits). *)
From Coq Require Import ZArith List Bool NArith Strings.Byte.
From Flocq Require Import Core BinarySingleNaN.
From Verif Require Import Base F32 F64 Kitti.
Open Scope Z_scope.

Definition is_digit (c : byte) : bool := (48 <=? byte_val c) && (byte_val c <=? 57).

(** dec2flt::parse::parse_partial_number: the longest run of digits, added to [n], with
    their number and what follows. *)
Fixpoint parse_digits (n : Z) (k : nat) (s : bytes) : Z * nat * bytes :=
  match s with
  | [] => (n, k, [])
  | c :: s' => if is_digit c then parse_digits (10 * n + (byte_val c - 48)) (S k) s' else (n, k, s)
  end.

(** An optional sign: dec2flt::dec2flt and dec2flt::parse::parse_scientific. *)
Definition parse_sign (s : bytes) : bool * bytes :=
  match s with
  | x2d :: s' => (true, s')
  | x2b :: s' => (false, s')
  | _ => (false, s)
  end.

(** dec2flt::parse::parse_scientific, which has to reach the end of the text. *)
Definition parse_exponent (s : bytes) : option Z :=
  let (neg, s1) := parse_sign s in
  match parse_digits 0 0 s1 with
  | (n, S _, []) => Some (if neg then - n else n)
  | _ => None
  end.

(** dec2flt::parse::parse_number: the number is the first component times ten to the
    second. *)
Definition parse_number (s : bytes) : option (Z * Z) :=
  let '(n0, k0, s1) := parse_digits 0 0 s in
  let '(n, k1, s2) := match s1 with
                      | x2e :: s1' => parse_digits n0 0 s1'
                      | _ => (n0, O, s1)
                      end in
  if Nat.eqb (k0 + k1) 0 then None
  else
    match s2 with
    | [] => Some (n, - Z.of_nat k1)
    | c :: s3 =>
        if Byte.eqb c x65 || Byte.eqb c x45 then
          match parse_exponent s3 with
          | Some x => Some (n, x - Z.of_nat k1)
          | None => None
          end
        else None
    end.

(** u8::eq_ignore_ascii_case *)
Definition to_ascii_lowercase (c : byte) : byte :=
  if (65 <=? byte_val c) && (byte_val c <=? 90)
  then match Byte.of_N (Byte.to_N c + 32) with Some l => l | None => c end
  else c.
Definition eq_ignore_case (s word : bytes) : bool :=
  if list_eq_dec Byte.byte_eq_dec (map to_ascii_lowercase s) word then true else false.
Definition word_inf : bytes := [x69; x6e; x66].
Definition word_infinity : bytes := [x69; x6e; x66; x69; x6e; x69; x74; x79].
Definition word_nan : bytes := [x6e; x61; x6e].

Section Format.
Context (prec emax : Z) {prec_gt_0_ : FLX.Prec_gt_0 prec} {prec_lt_emax_ : Prec_lt_emax prec emax}.

(** n / d rounded to nearest, ties to even. *)
Definition quotient (neg : bool) (n d : positive) : binary_float prec emax :=
  SF2B _ (proj1 (Bdiv_correct_aux prec emax _ _ mode_NE neg n 0 false d 0)).

(** m * 10^e rounded to nearest, ties to even. *)
Definition round_decimal (neg : bool) (m e : Z) : binary_float prec emax :=
  match m with
  | Zpos p =>
      match e with
      | Z0 => quotient neg p 1
      | Zpos q => quotient neg (p * Pos.pow 10 q) 1
      | Zneg q => quotient neg p (Pos.pow 10 q)
      end
  | _ => B754_zero neg
  end.

(** dec2flt::dec2flt; dec2flt::parse::parse_inf_nan.  NaN payloads and signs are not
    kept. *)
Definition parse_float (s : bytes) : option (binary_float prec emax) :=
  let (neg, s1) := parse_sign s in
  match parse_number s1 with
  | Some (m, e) => Some (round_decimal neg m e)
  | None =>
      if eq_ignore_case s1 word_inf || eq_ignore_case s1 word_infinity then Some (B754_infinity neg)
      else if eq_ignore_case s1 word_nan then Some B754_nan
      else None
  end.
End Format.

(** The reader of src/kitti/oxt_reader.rs with these parsers; the cosine and the rotation
    stay parameters. *)
Definition std_env {Rot : Type} (c : f64 -> f64) (rot : f32 -> f32 -> f32 -> Rot) : oxt_env Rot :=
  mkOxtEnv Rot (parse_float 53 1024) (parse_float 24 128) c rot.
