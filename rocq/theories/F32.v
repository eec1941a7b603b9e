(** The [f32] type, bit-accurate up to NaN payloads: Flocq's IEEE-754 binary32
    with the operations Rust's [f32] operators and methods perform (round to
    nearest, ties to even; no fused operations, no extended precision). *)
From Coq Require Import ZArith List Bool Reals.
From Flocq Require Import Core BinarySingleNaN.
From Verif Require Import Base.
Open Scope Z_scope.

Definition f32 : Type := binary_float 24 128.

#[global] Instance prec_gt_0_24 : FLX.Prec_gt_0 24 := eq_refl.
#[global] Instance prec_lt_emax_32 : Prec_lt_emax 24 128 := eq_refl.

Definition fadd (x y : f32) : f32 := Bplus mode_NE x y.
Definition fsub (x y : f32) : f32 := Bminus mode_NE x y.
Definition fmul (x y : f32) : f32 := Bmult mode_NE x y.
Definition fdiv (x y : f32) : f32 := Bdiv mode_NE x y.
Definition fsqrt (x : f32) : f32 := Bsqrt mode_NE x.
Definition fabs (x : f32) : f32 := Babs x.
Definition fneg (x : f32) : f32 := Bopp x.

(** [==], [<], [<=], [>], [>=]: false as soon as one side is NaN. *)
Definition feqb (x y : f32) : bool := Beqb x y.
Definition fltb (x y : f32) : bool := Bltb x y.
Definition fleb (x y : f32) : bool := Bleb x y.

(** f32::round (ties away from zero), floor, ceil. *)
Definition fround (x : f32) : f32 := Bnearbyint mode_NA x.
Definition ffloor (x : f32) : f32 := Bnearbyint mode_DN x.
Definition fceil (x : f32) : f32 := Bnearbyint mode_UP x.

(** [z as f32] for an [isize] z. *)
Definition f32_of_Z (z : Z) : f32 := binary_normalize 24 128 _ _ mode_NE z 0 false.

(** [x as isize]: truncation, saturating, NaN to 0 (Rust >= 1.45). *)
Definition f32_to_isize (x : f32) : Z :=
  match x with
  | B754_nan => 0
  | B754_infinity true => isize_min
  | B754_infinity false => isize_max
  | _ => Z.max isize_min (Z.min isize_max (Btrunc x))
  end.

(** A decimal literal n/d of the source, both parts exactly representable: the
    correctly rounded quotient is the correctly rounded literal. *)
Definition f32_lit (n d : Z) : f32 := fdiv (f32_of_Z n) (f32_of_Z d).

Definition f0 : f32 := B754_zero false.
Definition f1 : f32 := f32_of_Z 1.
Definition fm1 : f32 := f32_of_Z (-1).
Definition fhalf : f32 := f32_lit 1 2.
Definition finf : f32 := B754_infinity false.
Definition fninf : f32 := B754_infinity true.
Definition fnan : f32 := B754_nan.
(** std::f32::EPSILON = 2^-23 *)
Definition feps : f32 := f32_lit 1 8388608.

(** f32::min / f32::max: the other argument if one is NaN.  Rust leaves the sign
    of the result unspecified when both are zeros of different sign; here the
    second argument is returned in that case. *)
Definition fmin (x y : f32) : f32 :=
  if is_nan x then y else if is_nan y then x else if fltb x y then x else y.
Definition fmax (x y : f32) : f32 :=
  if is_nan x then y else if is_nan y then x else if fltb y x then x else y.

Definition is_inf (x : f32) : bool := match x with B754_infinity _ => true | _ => false end.

(** approx 0.3.2, RelativeEq::relative_eq on f32: what [relative_eq!] of bounds.rs:93,
    100, 138 and the implementation for boxes (bounds.rs:165-186) call. *)
Definition relative_eq_with (epsilon max_relative a b : f32) : bool :=
  if feqb a b then true
  else if is_inf a || is_inf b then false
  else
    let abs_diff := fabs (fsub a b) in
    if fleb abs_diff epsilon then true
    else
      let abs_a := fabs a in
      let abs_b := fabs b in
      let largest := if fltb abs_a abs_b then abs_b else abs_a in
      fleb abs_diff (fmul largest max_relative).
(** [relative_eq!] with the default epsilon and max_relative, both f32::EPSILON. *)
Definition relative_eq (a b : f32) : bool := relative_eq_with feps feps a b.
(** approx 0.3.2, AbsDiffEq::abs_diff_eq on f32. *)
Definition abs_diff_eq (epsilon a b : f32) : bool := fleb (fabs (fsub a b)) epsilon.

(** The real number denoted by a finite float. *)
Definition real (x : f32) : R := B2R x.
Definition finite (x : f32) : Prop := is_finite x = true.
