(** C01-C04: sign and log-odds. *)
From Coq Require Import ZArith List Bool Reals Lra.
From Flocq Require Import Core BinarySingleNaN.
From Verif Require Import Base F32 Arith Geom Spec MathProofs.
Open Scope R_scope.

Theorem C01_signum_values : forall x : f32,
  (is_nan x = true -> f32_signum x = fm1) /\
  (finite x -> real x = 0 -> f32_signum x = f0) /\
  (finite x -> 0 < real x -> f32_signum x = f1) /\
  (finite x -> real x < 0 -> f32_signum x = fm1) /\
  (x = finf -> f32_signum x = f1) /\
  (x = fninf -> f32_signum x = fm1) /\
  real f0 = 0 /\ real f1 = 1 /\ real fm1 = -1.
Proof. exact signum_values. Qed.
Print Assumptions C01_signum_values.

Theorem C01_signum_vector : forall v : list f32,
  length (signum F32A v) = length v /\
  forall i, (i < length v)%nat -> nth i (signum F32A v) f0 = f32_signum (nth i v f0).
Proof. exact signum_vector. Qed.
Print Assumptions C01_signum_vector.

Example C01_example :
  map B2SF (signum F32A [f32_lit (-5) 2; f32_lit 1 3; fneg f0; fnan]) = map B2SF [fm1; f1; f0; fm1].
Proof. vm_compute. reflexivity. Qed.

Theorem C02_probability_of_logodds : forall p, 0 < p < 1 ->
  probability_from_logodds RealA (xlift1 exp) (logodds_from_probability RealA (xlift1 ln) (Fin p)) = Fin p.
Proof. exact pr_lo. Qed.
Print Assumptions C02_probability_of_logodds.

Theorem C02_logodds_of_probability : forall l,
  logodds_from_probability RealA (xlift1 ln) (probability_from_logodds RealA (xlift1 exp) (Fin l)) = Fin l.
Proof. exact lo_pr. Qed.
Print Assumptions C02_logodds_of_probability.

Theorem C02_probability_in_range : forall l,
  exists p, probability_from_logodds RealA (xlift1 exp) (Fin l) = Fin p /\ 0 < p < 1.
Proof. exact pr_range. Qed.
Print Assumptions C02_probability_in_range.

Theorem C02_logodds_increasing : forall p q, 0 < p -> p < q -> q < 1 ->
  exists a b, logodds_from_probability RealA (xlift1 ln) (Fin p) = Fin a /\
              logodds_from_probability RealA (xlift1 ln) (Fin q) = Fin b /\ a < b.
Proof. exact lo_increasing. Qed.
Print Assumptions C02_logodds_increasing.

Theorem C02_probability_increasing : forall l m, l < m ->
  exists p q, probability_from_logodds RealA (xlift1 exp) (Fin l) = Fin p /\
              probability_from_logodds RealA (xlift1 exp) (Fin m) = Fin q /\ p < q.
Proof. exact pr_increasing. Qed.
Print Assumptions C02_probability_increasing.

Example C02_example : 0 < 7 / 10 < 1 /\ 4 / 10 < 7 / 10.
Proof. lra. Qed.

Theorem C03_logodds_special_values : forall ln, ln_special ln ->
  (forall p, finite p -> real p = 0 -> logodds_from_probability F32A ln p = fninf) /\
  logodds_from_probability F32A ln f1 = finf /\
  feqb (logodds_from_probability F32A ln fhalf) f0 = true /\
  (forall p, is_nan p = true \/ fltb p f0 = true \/ fltb f1 p = true ->
             is_nan (logodds_from_probability F32A ln p) = true).
Proof. exact logodds_special. Qed.
Print Assumptions C03_logodds_special_values.

(** Added to the property: between the ends the f32 log-odds never decrease. *)
Theorem C03_logodds_monotone : forall ln, ln_monotone ln -> forall p q,
  fleb f0 p = true -> fleb p q = true -> fleb q f1 = true ->
  fleb (logodds_from_probability F32A ln p) (logodds_from_probability F32A ln q) = true.
Proof. exact logodds_monotone. Qed.
Print Assumptions C03_logodds_monotone.

Example C03_example : ln_special coarse_ln /\ ln_monotone coarse_ln.
Proof. exact (conj coarse_ln_special coarse_ln_monotone). Qed.

Theorem C04_bayes : forall p q, 0 < p < 1 -> 0 < q < 1 ->
  tadd RealA (logodds_from_probability RealA (xlift1 ln) (Fin p))
             (logodds_from_probability RealA (xlift1 ln) (Fin q))
  = logodds_from_probability RealA (xlift1 ln) (Fin (bayes p q)) /\ 0 < bayes p q < 1.
Proof. exact bayes_lo. Qed.
Print Assumptions C04_bayes.

Example C04_example : 0 < 7 / 10 < 1 /\ 0 < 4 / 10 < 1 /\ bayes (7 / 10) (4 / 10) = 28 / 46.
Proof. unfold bayes. repeat split; lra. Qed.
