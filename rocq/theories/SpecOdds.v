(** What the properties on the accuracy of log-odds talk about. *)
From Coq Require Import ZArith List Bool Reals.
From Flocq Require Import Core BinarySingleNaN.
From Verif Require Import Base F32 Arith Geom Spec.
Open Scope R_scope.

(** A logarithm and an exponential with a relative error of at most 2^-22, two units in the
    last place; the exponential is used between -64 and 64 only. *)
Definition ln_accurate (f : f32 -> f32) : Prop := forall x, finite x -> 0 < real x ->
  finite (f x) /\ Rabs (real (f x) - ln (real x)) <= bpow radix2 (-22) * Rabs (ln (real x)).
Definition exp_accurate (f : f32 -> f32) : Prop := forall x, finite x -> Rabs (real x) <= 64 ->
  finite (f x) /\ Rabs (real (f x) - exp (real x)) <= bpow radix2 (-22) * exp (real x).

(** The exact log-odds of a probability, and the probability with given log-odds. *)
Definition exact_logodds (p : R) : R := ln (p / (1 - p)).
Definition exact_probability (l : R) : R := exp l / (1 + exp l).
