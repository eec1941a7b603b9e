(** Examples for mirror images of rays. *)
From Coq Require Import ZArith List Bool Reals Lia.
From Flocq Require Import Core BinarySingleNaN.
From Verif Require Import Base F32 Arith Geom RayCaster Spec SpecRay Examples ExamplesRay.
Open Scope Z_scope.

Definition mi_fl : list bool := [true; false; true].
Lemma mi_hyps : Forall (fun x => is_nan x = false) (direction ex_o sl_e) /\
  Forall (fun z => Z.abs z <= 2 ^ 62) (cell_from_point F32A ex_o ex_b f1) /\ Forall (fun z => Z.abs z <= 2 ^ 62) (cell_from_point F32A sl_e ex_b f1) /\
  mirrored_cell mi_fl [2; 1; 3] = [-2; 1; -3].
Proof.
  assert (E1 : cell_from_point F32A ex_o ex_b f1 = [0; 1; 0]) by (vm_compute; reflexivity).
  assert (E2 : cell_from_point F32A sl_e ex_b f1 = [3; 3; 1]) by (vm_compute; reflexivity).
  rewrite E1, E2. split; [|split; [repeat constructor; lia|split; [repeat constructor; lia|reflexivity]]].
  apply Forall_forall. intros x H. assert (A : forallb (fun x => negb (is_nan x)) (direction ex_o sl_e) = true) by (vm_compute; reflexivity).
  rewrite forallb_forall in A. specialize (A x H). now destruct (is_nan x).
Qed.
Lemma mi_scan : cast_rays 20 [f0; f0] ex_cloud (mkBounds [f0; f0] [f0; f0]) f1 f0 = Ret ([[0; 0]; [1; 0]], [[3; 0]; [2; 0]]) /\
  Forall (fun p => length p = 2%nat /\ Forall (fun x => is_nan x = false) (direction [f0; f0] p) /\ Forall (fun z => Z.abs z <= 2 ^ 62) (cell_from_point F32A p [f0; f0] f1)) (pc_points ex_cloud).
Proof.
  split; [exact ex_rays|]. apply Forall_forall. intros p Hp.
  assert (A : forallb (fun p => Nat.eqb (length p) 2 && (forallb (fun x => negb (is_nan x)) (direction [f0; f0] p) && forallb (fun z => Z.abs z <=? 2 ^ 62) (cell_from_point F32A p [f0; f0] f1))) (pc_points ex_cloud) = true) by (vm_compute; reflexivity).
  rewrite forallb_forall in A. specialize (A p Hp). apply andb_prop in A. destruct A as [A1 A]. apply andb_prop in A. destruct A as [A2 A3].
  apply Nat.eqb_eq in A1. rewrite forallb_forall in A2, A3. split; [exact A1|]. split; apply Forall_forall; intros x Hx.
  - specialize (A2 x Hx). now destruct (is_nan x).
  - now apply Z.leb_le, A3.
Qed.

(** A ray so short that the square of its length is zero. *)
Definition tiny : f32 := fdiv f1 (f32_of_Z (2 ^ 76)).
Lemma tiny_ok : res_ok tiny.
Proof.
  assert (E : B2SF tiny = SpecFloat.S754_finite false 8388608 (-99)) by (vm_compute; reflexivity).
  assert (V : real tiny = bpow radix2 (-76)).
  { unfold real. rewrite <- SF2R_B2SF, E. unfold SF2R, F2R. cbn [cond_Zopp Fnum Fexp]. change (IZR 8388608) with (bpow radix2 23). now rewrite <- bpow_plus. }
  split; [unfold finite; rewrite <- is_finite_SF_B2SF, E; reflexivity|]. rewrite V. split; apply bpow_le; lia.
Qed.
Lemma tiny_sideways : exists fl o e b r m rc oe, length fl = 2%nat /\ length o = 2%nat /\ length e = 2%nat /\ length b = 2%nat /\
  Forall finite o /\ Forall finite e /\ Forall finite b /\ res_ok r /\
  cell_from_point F32A o b r = [0; 0] /\ cell_from_point F32A e b r = [1; 0] /\
  cast_ray F32A 9 o e b r m = Ret (rc, oe) /\ cast_ray F32A 9 (mirrored fl o) (mirrored fl e) (mirrored fl b) r m = Ret (rc, oe) /\
  In [0; -1] rc /\ ~ In (mirrored_cell fl [0; -1]) rc.
Proof.
  exists [false; true], [f0; f0], [tiny; f0], [f0; f0], tiny, (fdiv f1 (f32_of_Z (2 ^ 100))), [[0; 0]; [0; -1]; [0; -2]], None.
  do 4 (split; [reflexivity|]). split; [repeat constructor|]. split; [constructor; [exact (proj1 tiny_ok)|repeat constructor]|]. split; [repeat constructor|]. split; [exact tiny_ok|].
  split; [vm_compute; reflexivity|]. split; [vm_compute; reflexivity|]. split; [vm_compute; reflexivity|]. split; [vm_compute; reflexivity|].
  split; [right; now left|]. intros [H|[H|[H|[]]]]; discriminate H.
Qed.
