(** The arithmetic used by the ray caster and the log-odds functions, as a record
    of operations, so that the same code can be run in f32 arithmetic (the
    faithful model) and in exact real arithmetic (the ideal model). *)
From Coq Require Import ZArith List Bool Reals.
From Flocq Require Import Core BinarySingleNaN.
From Verif Require Import Base F32.
Open Scope Z_scope.

Record arith : Type := {
  T : Type;
  tadd : T -> T -> T;
  tsub : T -> T -> T;
  tmul : T -> T -> T;
  tdiv : T -> T -> T;
  tsqrt : T -> T;
  tabs : T -> T;
  teqb : T -> T -> bool;
  tltb : T -> T -> bool;
  tzero : T;
  tone : T;
  tmone : T;
  thalf : T;
  tinf : T;
  t_of_isize : Z -> T;      (* x as f32 *)
  t_to_isize : T -> Z;      (* x as isize *)
  tround : T -> T           (* x.round() *)
}.

Definition F32A : arith := {|
  T := f32; tadd := fadd; tsub := fsub; tmul := fmul; tdiv := fdiv; tsqrt := fsqrt;
  tabs := fabs; teqb := feqb; tltb := fltb; tzero := f0; tone := f1; tmone := fm1;
  thalf := fhalf; tinf := finf; t_of_isize := f32_of_Z; t_to_isize := f32_to_isize;
  tround := fround |}.

(** Reals with one point +infinity, which the ray caster uses for axes along
    which the ray does not move. *)
Inductive xreal : Type := Fin (r : R) | Inf.

Definition xlift2 (f : R -> R -> R) (a b : xreal) : xreal :=
  match a, b with Fin x, Fin y => Fin (f x y) | _, _ => Inf end.
Definition xlift1 (f : R -> R) (a : xreal) : xreal :=
  match a with Fin x => Fin (f x) | Inf => Inf end.
Definition xeqb (a b : xreal) : bool :=
  match a, b with Fin x, Fin y => Req_bool x y | Inf, Inf => true | _, _ => false end.
Definition xltb (a b : xreal) : bool :=
  match a, b with Fin x, Fin y => Rlt_bool x y | Fin _, Inf => true | Inf, _ => false end.

Definition RealA : arith := {|
  T := xreal; tadd := xlift2 Rplus; tsub := xlift2 Rminus; tmul := xlift2 Rmult;
  tdiv := xlift2 Rdiv; tsqrt := xlift1 sqrt; tabs := xlift1 Rabs;
  teqb := xeqb; tltb := xltb; tzero := Fin 0; tone := Fin 1; tmone := Fin (-1);
  thalf := Fin (1/2); tinf := Inf; t_of_isize := fun z => Fin (IZR z);
  t_to_isize := fun x => match x with Fin r => Ztrunc r | Inf => isize_max end;
  tround := xlift1 (fun r => IZR (ZnearestA r)) |}.
