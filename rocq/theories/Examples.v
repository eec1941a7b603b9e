(** Closed floats used in examples and witnesses. *)
From Coq Require Import ZArith List Bool Reals Lra Lia.
From Flocq Require Import Core BinarySingleNaN.
From Verif Require Import Base F32 FloatFacts RoundError Arith Geom Spec MathProofs ConverterProofs.
Open Scope R_scope.

Ltac fin := unfold finite; vm_compute; reflexivity.

Lemma res_by : forall r : f32, is_finite r = true -> / 1024 <= B2R r <= 1024 -> res_ok r.
Proof.
  intros r F H. split. exact F. unfold real.
  assert (bp (-100) <= bp (-10)) by (apply bpow_le; lia).
  assert (bp 10 <= bp 100) by (apply bpow_le; lia).
  replace (bp (-10)) with (/ 1024) in * by (unfold bpow; simpl; lra).
  replace (bp 10) with 1024 in * by (unfold bpow; simpl; lra). lra.
Qed.

(** Adds [V : B2R x = n / d] for a closed finite float x. *)
Ltac closed_float x :=
  let v := eval vm_compute in (B2SF x) in
  let H := fresh "V" in
  match v with
  | SpecFloat.S754_zero _ => assert (H : B2R x = 0) by (to_SF x)
  | SpecFloat.S754_finite ?s ?m ?e =>
      let n := eval vm_compute in (cond_Zopp s (Z.pos m) * 2 ^ (Z.max 0 e))%Z in
      let d := eval vm_compute in (2 ^ (Z.max 0 (- e)))%Z in
      assert (H : B2R x = IZR n / IZR d) by (to_SF x)
  end.

Lemma res_tenth : res_ok (f32_lit 1 10).
Proof. apply res_by. vm_compute; reflexivity. closed_float (f32_lit 1 10). rewrite V. lra. Qed.
Lemma res_one : res_ok f1.
Proof. apply res_by. vm_compute; reflexivity. rewrite f1_real. lra. Qed.

Lemma within_example : within_cells (2 ^ 20) (f32_lit 1 10) (f32_lit (-5) 2).
Proof.
  split. fin. unfold real. closed_float (f32_lit 1 10). closed_float (f32_lit (-5) 2).
  rewrite V, V0. rewrite Rabs_left by lra. change (2 ^ 20)%Z with 1048576%Z. lra.
Qed.

Lemma round_trip_fails : exists (c : cell) (o : point) (r : f32),
  length o = length c /\ feqb r f1 = true /\
  cell_from_point F32A (point_from_cell F32A c o r) o r <> c.
Proof.
  exists [(2 ^ 24 + 1)%Z], [f0], f1. split; [reflexivity|]. split; [vm_compute; reflexivity|].
  vm_compute. discriminate.
Qed.

Lemma nearest_example : exists p o r : f32, res_ok r /\ finite p /\ finite o /\
  Rabs (real p - real o) <= IZR (2 ^ 11) * real r /\ Rabs (real o) <= IZR (2 ^ 11) * real r.
Proof.
  exists (f32_lit 31 10), (f32_lit (-5) 2), (f32_lit 1 10). split. apply res_tenth.
  split. fin. split. fin. unfold real.
  closed_float (f32_lit 31 10). closed_float (f32_lit (-5) 2). closed_float (f32_lit 1 10).
  rewrite V, V0, V1. change (2 ^ 11)%Z with 2048%Z. split; apply Rabs_le; lra.
Qed.

Lemma boundary_fails : exists (p o r : f32) (k : Z),
  finite p /\ finite o /\ res_ok r /\ real p - real o = (IZR k + / 2) * real r /\
  cell_coord_from_point_coord F32A p o r <> (k + 1)%Z.
Proof.
  exists (f32_lit (-1) 2), f0, f1, (-1)%Z. split. fin. split. fin. split. apply res_one.
  split. { unfold real. rewrite f1_real. closed_float (f32_lit (-1) 2). rewrite V. simpl (B2R f0). lra. }
  vm_compute. discriminate.
Qed.

Lemma boundary_example : exists p o r : f32, finite p /\ finite o /\ res_ok r /\
  real p - real o = (IZR 7 + / 2) * real r /\
  generic_format radix2 (SpecFloat.fexp 24 128) (real p - real o).
Proof.
  exists (f32_lit 15 2), f0, f1. split. fin. split. fin. split. apply res_one.
  unfold real. simpl (B2R f0). rewrite f1_real. split.
  - closed_float (f32_lit 15 2). rewrite V. lra.
  - rewrite Rminus_0_r. apply generic_format_B2R.
Qed.
