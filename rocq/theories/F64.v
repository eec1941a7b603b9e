(** The [f64] type, as [f32] in F32.v: Flocq's IEEE-754 binary64 with one NaN. *)
From Coq Require Import ZArith List Bool Reals.
From Flocq Require Import Core BinarySingleNaN.
From Verif Require Import Base F32.
Open Scope Z_scope.

Definition f64 : Type := binary_float 53 1024.

#[global] Instance prec_gt_0_53 : FLX.Prec_gt_0 53 := eq_refl.
#[global] Instance prec_lt_emax_64 : Prec_lt_emax 53 1024 := eq_refl.

Definition dsub (x y : f64) : f64 := Bminus mode_NE x y.
Definition dmul (x y : f64) : f64 := Bmult mode_NE x y.
Definition ddiv (x y : f64) : f64 := Bdiv mode_NE x y.

(** m * 2^e, rounded *)
Definition f64_of (m e : Z) : f64 := binary_normalize 53 1024 _ _ mode_NE m e false.
Definition f64_of_Z (z : Z) : f64 := f64_of z 0.

(** [x as f32] for an [f64] x: rounded to nearest, ties to even. *)
Definition f32_of_f64 (x : f64) : f32 :=
  match x with
  | B754_zero s => B754_zero s
  | B754_infinity s => B754_infinity s
  | B754_nan => B754_nan
  | B754_finite s m e _ => binary_normalize 24 128 _ _ mode_NE (cond_Zopp s (Zpos m)) e s
  end.

(** std::f64::consts::PI = 884279719003555 * 2^-48 *)
Definition PI64 : f64 := f64_of 884279719003555 (-48).
(** f64::to_radians *)
Definition to_radians (x : f64) : f64 := dmul x (ddiv PI64 (f64_of_Z 180)).
