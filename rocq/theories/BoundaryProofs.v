(** Points on a boundary between cells when the subtraction rounds. *)
From Coq Require Import ZArith List Bool Reals Lra Lia Psatz.
From Flocq Require Import Core BinarySingleNaN.
From Verif Require Import Base F32 FloatFacts RoundError Arith Geom Spec ConverterProofs Examples.
Open Scope R_scope.

(** Whatever the rounding, the cell is one of the two that meet at the boundary. *)
Lemma boundary_either : forall (p o r : f32) (k : Z), finite p -> finite o -> res_ok r ->
  (Z.abs k < 2 ^ 22)%Z -> real p - real o = (IZR k + / 2) * real r ->
  cell_coord_from_point_coord F32A p o r = k \/
  cell_coord_from_point_coord F32A p o r = (k + 1)%Z.
Proof.
  intros p o r k Fp Fo HR Hk H.
  assert (P : 0 < real r) by exact (res_ok_pos r HR).
  assert (Hkr : Rabs (IZR k) <= 4194303).
  { rewrite <- abs_IZR. apply IZR_le. lia. }
  assert (Hk2 : Rabs (IZR k + / 2) <= 4194303 + / 2).
  { eapply Rle_trans. apply Rabs_triang. rewrite (Rabs_pos_eq (/ 2)) by lra. lra. }
  assert (D : Rabs (real p - real o) = Rabs (IZR k + / 2) * real r).
  { rewrite H, Rabs_mult, (Rabs_pos_eq (real r)) by lra. reflexivity. }
  pose proof (nearest1 p o r HR Fp Fo) as N. cbv zeta in N.
  change (2 ^ 26)%Z with 67108864%Z in N.
  set (c := cell_coord_from_point_coord F32A p o r) in *.
  assert (L : Rabs (real p - real o) <= 67108864 * real r).
  { rewrite D. apply Rmult_le_compat_r; lra. }
  specialize (N L).
  replace (IZR c * real r + real o - real p) with ((IZR c - IZR k - / 2) * real r) in N
    by (transitivity (IZR c * real r - (real p - real o)); [rewrite H; ring|ring]).
  rewrite Rabs_mult, (Rabs_pos_eq (real r)), D in N by lra.
  assert (B : bpow radix2 (-22) = / 4194304) by (unfold bpow; simpl; lra).
  rewrite B in N.
  assert (X : Rabs (IZR c - IZR k - / 2) < 3 / 2).
  { apply Rmult_lt_reg_r with (real r). exact P. eapply Rle_lt_trans. exact N.
    replace (/ 2 * real r + / 4194304 * (Rabs (IZR k + / 2) * real r))
      with ((/ 2 + / 4194304 * Rabs (IZR k + / 2)) * real r) by ring.
    apply Rmult_lt_compat_r; lra. }
  apply Rabs_lt_inv in X.
  assert (X1 : (k - 1 < c)%Z) by (apply lt_IZR; rewrite minus_IZR; lra).
  assert (X2 : (c < k + 2)%Z) by (apply lt_IZR; rewrite plus_IZR; lra).
  lia.
Qed.

(** The subtraction is exact for coordinates that are not too many steps of a common
    grid apart. *)
Lemma boundary_grid : forall (p o r : f32) (k e a b : Z), finite p -> finite o -> res_ok r ->
  (Z.abs k < 2 ^ 22)%Z -> real p - real o = (IZR k + / 2) * real r ->
  (-149 <= e)%Z -> real p = IZR a * bpow radix2 e -> real o = IZR b * bpow radix2 e ->
  (Z.abs (a - b) < 2 ^ 24)%Z ->
  cell_coord_from_point_coord F32A p o r = if (0 <=? k)%Z then (k + 1)%Z else k.
Proof.
  intros p o r k e a b Fp Fo HR Hk H He Ha Hb Hab.
  apply boundary1; try assumption.
  change (generic_format radix2 (FLT_exp (-149) 24) (real p - real o)).
  apply generic_format_FLT. exists (Float radix2 (a - b) e).
  - unfold F2R, Fnum, Fexp. rewrite minus_IZR, Ha, Hb. ring.
  - exact Hab.
  - exact He.
Qed.

(** A point on a boundary above the offset that ends in the lower cell. *)
Definition bd_p : f32 := f32_lit 40918872 16777216.
Definition bd_o : f32 := f32_lit 6 16777216.
Definition bd_r : f32 := f32_lit 27279244 16777216.

Lemma bd_case : finite bd_p /\ finite bd_o /\ res_ok bd_r /\
  real bd_p - real bd_o = (IZR 1 + / 2) * real bd_r.
Proof.
  unfold real. closed_float bd_p. closed_float bd_o. closed_float bd_r.
  split. fin. split. fin. split.
  - apply res_by. vm_compute; reflexivity. rewrite V1. lra.
  - rewrite V, V0, V1. lra.
Qed.

Lemma boundary_above_fails : exists (p o r : f32) (k : Z),
  finite p /\ finite o /\ res_ok r /\ (0 <= k < 2 ^ 22)%Z /\
  real p - real o = (IZR k + / 2) * real r /\
  cell_coord_from_point_coord F32A p o r = k.
Proof.
  exists bd_p, bd_o, bd_r, 1%Z. destruct bd_case as [A [B [C D]]].
  repeat (split; [assumption|]). split. lia. split. exact D. vm_compute. reflexivity.
Qed.

(** Quarters: the boundary at 7.75 from an offset of -0.5 with cells of 1.5. *)
Lemma boundary_grid_example : exists p o r : f32, finite p /\ finite o /\ res_ok r /\
  real p - real o = (IZR 5 + / 2) * real r /\
  real p = IZR 31 * bpow radix2 (-2) /\ real o = IZR (-2) * bpow radix2 (-2).
Proof.
  exists (f32_lit 31 4), (f32_lit (-1) 2), (f32_lit 3 2). unfold real.
  closed_float (f32_lit 31 4). closed_float (f32_lit (-1) 2). closed_float (f32_lit 3 2).
  split. fin. split. fin. split.
  - apply res_by. vm_compute; reflexivity. rewrite V1. lra.
  - replace (bpow radix2 (-2)) with (/ 4) by (unfold bpow; simpl; lra).
    rewrite V, V0, V1. repeat split; lra.
Qed.
