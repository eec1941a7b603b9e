(** Examples for the order in which a ray crosses borders. *)
From Coq Require Import ZArith List Bool Reals Lra Lia.
From Flocq Require Import Core BinarySingleNaN.
From Verif Require Import Base F32 FloatFacts Arith Geom RayCaster Spec SpecRay RayProofs CastProofs MergeProofs Examples ExamplesRay.
Open Scope Z_scope.

Lemma sloped_cells : ray_range f1 ex_o sl_e ex_b /\ cell_from_point F32A ex_o ex_b f1 <> cell_from_point F32A sl_e ex_b f1.
Proof. split; [apply sloped_short|]. vm_compute. discriminate. Qed.
Lemma sloped_passes : passes 3 ex_o sl_e ex_b f1 (cell_from_point F32A ex_o ex_b f1) (cell_from_point F32A sl_e ex_b f1).
Proof.
  apply (cast_condition 3 ex_o sl_e ex_b f1 f0); try reflexivity; auto.
  - destruct sloped_cells as [R N]. apply (range_timed 3); auto.
  - exists 40%nat. destruct (cast_ray F32A 40 ex_o sl_e ex_b f1 f0) as [res| |] eqn:E; [now exists res| |]; exfalso; revert E; vm_compute; discriminate.
Qed.

(** A ray that meets two borders at once and takes the wrong one. *)
Lemma tie_missed : well_timed w_o w_e w_b f1 [0; 1] /\ cell_from_point F32A w_o w_b f1 = [0; 1] /\ cell_from_point F32A w_e w_b f1 = [1; 1] /\
  nth 0 (first_crossings w_o w_e w_b f1 [0; 1]) f0 = nth 1 (first_crossings w_o w_e w_b f1 [0; 1]) f0 /\
  passes 2 w_o w_e w_b f1 [0; 1] [1; 0] /\ ~ passes 2 w_o w_e w_b f1 [0; 1] [1; 1].
Proof.
  assert (W : well_timed w_o w_e w_b f1 [0; 1]).
  { apply (Forall2_cons (R := fun t s => fltb fninf t = true /\ fle f0 s)); [split; vm_compute; reflexivity|].
    apply (Forall2_cons (R := fun t s => fltb fninf t = true /\ fle f0 s)); [split; vm_compute; reflexivity|]. apply Forall2_nil. }
  split; [exact W|]. split; [vm_compute; reflexivity|]. split; [vm_compute; reflexivity|]. split; [apply B2SF_inj; vm_compute; reflexivity|]. split.
  - split; [reflexivity|]. split.
    + intros [|[|i]] Hi; try lia; vm_compute; reflexivity.
    + intros [|[|i]] [|[|j]] Hi Hj N P; try lia.
      * left. vm_compute. reflexivity.
      * left. vm_compute. reflexivity.
  - intros (_ & _ & H). destruct (H 0%nat 1%nat ltac:(lia) ltac:(lia) ltac:(lia) ltac:(vm_compute; lia)) as [B|[_ B]]; [|lia]. revert B. vm_compute. discriminate.
Qed.

(** The sloped ray cut at length 1. *)
Lemma sloped_cut : cast_ray F32A 40 ex_o sl_e ex_b f1 f1 = Ret ([[0; 1; 0]; [1; 1; 0]], None).
Proof. vm_compute. reflexivity. Qed.
Lemma sloped_timed : well_timed ex_o sl_e ex_b f1 (cell_from_point F32A ex_o ex_b f1).
Proof. destruct sloped_cells as [R N]. apply (range_timed 3); auto. Qed.
