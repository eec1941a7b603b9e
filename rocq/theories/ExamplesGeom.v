(** Concrete boxes and clouds used beside the geometry theorems. *)
From Coq Require Import ZArith List Bool Reals Lra Lia.
From Flocq Require Import Core BinarySingleNaN.
From Verif Require Import Base F32 FloatFacts RoundError Arith Geom Spec SpecMap MathProofs ConverterProofs GeomProofs BoundsProofs CloudProofs Examples.
Open Scope R_scope.

Ltac box := repeat split; repeat constructor; vm_compute; reflexivity.

Definition unit_box : bounds := mkBounds [f0; f0] [f1; f1].
Definition half_box : bounds := mkBounds [fhalf; fhalf] [f32_lit 3 2; f32_lit 5 2].
Definition far_box : bounds := mkBounds [f1; f1] [f32_lit 3 1; f32_lit 4 1].

Lemma unit_box_ordered : ordered 2 unit_box. Proof. box. Qed.
Lemma half_box_ordered : ordered 2 half_box. Proof. box. Qed.
Lemma far_box_ordered : ordered 2 far_box. Proof. box. Qed.

Lemma half_box_nonzero : ~ is_zero_box half_box.
Proof.
  intros [H _]. apply Forall_inv in H. assert (E : feqb fhalf f0 = false) by (vm_compute; reflexivity).
  cbv beta in H. rewrite E in H. discriminate.
Qed.

Lemma enclosing_asymmetric : exists a b, ordered 2 a /\ ordered 2 b /\ is_zero_box b /\
  bounds_eqb (bounds_enclosing a b) (bounds_enclosing b a) = false.
Proof.
  exists far_box, (bounds_empty 2). split; [exact far_box_ordered|]. split; [apply bounds_empty_ordered|].
  split; [box|]. vm_compute. reflexivity.
Qed.

Lemma not_fle_all : forall l m, forallb (fun ab => fleb (fst ab) (snd ab)) (combine l m) = false -> ~ Forall2 fle l m.
Proof.
  intros l m E H. induction H as [|x y l m F H IH]; cbn [combine forallb fst snd] in E; [discriminate|].
  unfold fle in F. rewrite F in E. auto.
Qed.

Lemma overlapping_not_contained : exists a b, ordered 2 a /\ ordered 2 b /\
  (exists p, inside a p /\ inside b p) /\ ~ sub_box (bounds_overlapping a b) a.
Proof.
  exists far_box, (mkBounds [f32_lit 3 1; f1] [f32_lit 5 1; f32_lit 2 1]).
  split; [exact far_box_ordered|]. split; [box|]. split.
  - exists [f32_lit 3 1; f1]. split; box.
  - intros [H _]. revert H. apply not_fle_all. vm_compute; reflexivity.
Qed.

Lemma clear_example : forall i, (i < 2)%nat -> forall lo hi,
     (lo = nth i (bmin unit_box) f0 \/ lo = nth i (bmin half_box) f0) ->
     (hi = nth i (bmax unit_box) f0 \/ hi = nth i (bmax half_box) f0) -> clearly_below lo hi.
Proof.
  assert (B : bp (-22) = / 4194304) by (unfold bpow; simpl; lra).
  assert (W : forall lo hi : f32, is_finite lo = true -> is_finite hi = true ->
     0 <= B2R lo <= / 2 -> 1 <= B2R hi <= 4 -> clearly_below lo hi).
  { intros lo hi F1 F2 A C. repeat split; try assumption. unfold real. rewrite B.
    rewrite (Rabs_pos_eq (B2R lo)), (Rabs_pos_eq (B2R hi)) by lra.
    assert (Rmax 1 (Rmax (B2R lo) (B2R hi)) <= 4). { repeat apply Rmax_lub; lra. } lra. }
  assert (Z0 : 0 <= B2R f0 <= / 2) by (simpl; lra).
  assert (H2 : 0 <= B2R fhalf <= / 2) by (closed_float fhalf; rewrite V; lra).
  assert (O1 : 1 <= B2R f1 <= 4) by (rewrite f1_real; lra).
  assert (T2 : 1 <= B2R (f32_lit 3 2) <= 4) by (closed_float (f32_lit 3 2); rewrite V; lra).
  assert (V2 : 1 <= B2R (f32_lit 5 2) <= 4) by (closed_float (f32_lit 5 2); rewrite V; lra).
  assert (F3 : is_finite fhalf = true) by (vm_compute; reflexivity).
  assert (F4 : is_finite f1 = true) by (vm_compute; reflexivity).
  assert (F5 : is_finite (f32_lit 3 2) = true) by (vm_compute; reflexivity).
  assert (F6 : is_finite (f32_lit 5 2) = true) by (vm_compute; reflexivity).
  intros [|[|i]] Hi lo hi L H'; [| |lia]; cbn [nth bmin bmax unit_box half_box] in L, H';
    destruct L as [->| ->], H' as [->| ->]; apply W; first [assumption|exact eq_refl].
Qed.

Definition disc_box : bounds := mkBounds [f32_lit (-7) 100; f32_lit 3 10] [f32_lit 26 100; f32_lit 3 10].
Lemma disc_box_ordered : ordered 2 disc_box. Proof. box. Qed.
Lemma tenth_pos : finite (f32_lit 1 10) /\ 0 < real (f32_lit 1 10).
Proof. split. fin. unfold real. closed_float (f32_lit 1 10). rewrite V. lra. Qed.

Definition cloud3 : list point :=
  [[f1; fhalf; fm1]; [fnan; finf; f32_lit 3 1]; [f0; f32_lit (-2) 1; f0]].
Lemma cloud3_lengths : Forall (fun p => length p = 3%nat) cloud3.
Proof. repeat constructor. Qed.
Definition matrix3 : matrix := mkMatrix 3 2 [f1; fhalf; fm1; f0; f32_lit 3 1; f32_lit (-2) 1].
Lemma matrix3_ok : matrix_ok matrix3 /\ nrows matrix3 = 3%nat /\ Forall finite (mdata matrix3).
Proof. repeat split. repeat constructor. Qed.

Lemma rigid_example : rigid (0, -1, 0) (1, 0, 0) (0, 0, 1).
Proof. unfold rigid, dot3. lra. Qed.

(** a rotation by an angle whose sine and cosine are not floats, and a translation *)
Definition turn1 : list f32 := [f32_lit 6 10; f32_lit (-8) 10; f0; f32_lit 12 1].
Definition turn2 : list f32 := [f32_lit 8 10; f32_lit 6 10; f0; f32_lit (-7) 10].
Definition turn3 : list f32 := [f0; f0; f1; f32_lit 3 10].
Lemma moderate_by : forall x : f32, is_finite x = true -> Rabs (B2R x) <= 100 -> moderate x.
Proof.
  intros x F H. split; [exact F|]. apply Rle_trans with (1 := H). apply Rle_trans with (bpow radix2 7).
  - change (bpow radix2 7) with 128. lra.
  - apply bpow_le. lia.
Qed.
Ltac small_float x := closed_float x; match goal with V : B2R x = _ |- _ => rewrite V; clear V end; apply Rabs_le; lra.
Ltac moderate_float := match goal with |- moderate ?x => apply moderate_by; [vm_compute; reflexivity|small_float x] end.
Lemma turn_rows : Forall (fun row => length row = 4%nat /\ Forall moderate row) [turn1; turn2; turn3].
Proof.
  repeat (apply Forall_cons; [split; [reflexivity|]; repeat (apply Forall_cons; [moderate_float|]); apply Forall_nil|]).
  apply Forall_nil.
Qed.
Lemma matrix3_moderate : Forall moderate (mdata matrix3).
Proof. unfold matrix3. cbn [mdata]. repeat (apply Forall_cons; [moderate_float|]). apply Forall_nil. Qed.
Lemma turn_near_rigid : near_rigid (bpow radix2 (-20)) (triple turn1) (triple turn2) (triple turn3).
Proof.
  unfold near_rigid, triple, dot3, turn1, turn2, turn3. cbn [nth]. unfold real.
  closed_float (f32_lit 6 10). closed_float (f32_lit 8 10). closed_float (f32_lit (-8) 10).
  closed_float f1. closed_float f0. rewrite V, V0, V1, V2, V3. change (bpow radix2 (-20)) with (/ 1048576).
  repeat split; apply Rabs_le; lra.
Qed.
Lemma turn_small : Forall (fun x => Rabs (real x) <= 12) (mdata matrix3) /\
  Forall (fun row => Rabs (real (nth 3 row f0)) <= 12) [turn1; turn2; turn3].
Proof.
  split; unfold matrix3, turn1, turn2, turn3; cbn [mdata].
  - repeat (apply Forall_cons; [match goal with |- Rabs (real ?x) <= _ => unfold real; small_float x end|]). apply Forall_nil.
  - repeat (apply Forall_cons; [cbn [nth]; match goal with |- Rabs (real ?x) <= _ => unfold real; small_float x end|]).
    apply Forall_nil.
Qed.

Definition box_a : bounds := mkBounds [f0; fm1] [f1; f32_lit 3 10].
Definition box_a' : bounds := mkBounds [f0; fm1] [fadd f1 feps; f32_lit 3 10].
Lemma approx_example : Forall finite (bmin box_a ++ bmax box_a) /\ Forall finite (bmin box_a' ++ bmax box_a') /\
  bounds_eqb box_a box_a' = false /\ bounds_relative_eq feps feps box_a box_a' = true /\ fle f0 feps.
Proof.
  split; [repeat constructor|]. split; [repeat constructor|]. repeat split; vm_compute; reflexivity.
Qed.
Lemma infinite_example : bounds_relative_eq feps feps (mkBounds [fninf; f0] [f1; finf]) (mkBounds [fninf; f0] [fadd f1 feps; finf]) = true /\
  bounds_relative_eq feps f1 (mkBounds [fninf; f0] [f1; finf]) (mkBounds [fninf; f0] [f1; f1]) = false.
Proof. split; vm_compute; reflexivity. Qed.
Definition box_b : bounds := mkBounds [fm1; fm1] [f1; f1].
Definition box_b' : bounds := mkBounds [fm1; fm1] [fadd f1 feps; f1].
Lemma exact_example : Forall finite (bmin box_b ++ bmax box_b) /\ Forall finite (bmin box_b' ++ bmax box_b') /\
  Forall2 (fun x y => 1 <= Rmax (Rabs (real x)) (Rabs (real y))) (bmin box_b ++ bmax box_b) (bmin box_b' ++ bmax box_b') /\
  bounds_relative_eq feps feps box_b box_b' = true /\ bounds_eqb box_b box_b' = false.
Proof.
  split; [repeat constructor|]. split; [repeat constructor|]. split; [|split; vm_compute; reflexivity].
  cbn [app bmin bmax box_b box_b']. repeat apply Forall2_cons; try apply Forall2_nil; (eapply Rle_trans; [|apply Rmax_l]); unfold real.
  all: match goal with |- 1 <= Rabs (B2R ?x) => closed_float x; rewrite V end; unfold Rabs; destruct (Rcase_abs _); lra.
Qed.
Lemma disc_box_request : res_ok (f32_lit 1 10) /\ request_ok 2 (f32_lit 1 10) disc_box.
Proof.
  split; [exact res_tenth|]. split; [exact disc_box_ordered|].
  assert (T : / 16 <= B2R (f32_lit 1 10)) by (closed_float (f32_lit 1 10); rewrite V; lra).
  assert (W : forall x : f32, is_finite x = true -> Rabs (B2R x) <= 1 -> within_cells (2 ^ 18) (f32_lit 1 10) x).
  { intros x F B. split; [exact F|]. unfold real. change (IZR (2 ^ 18)) with 262144. lra. }
  split; cbn [disc_box bmin bmax]; repeat apply Forall_cons; try apply Forall_nil; (apply W; [vm_compute; reflexivity|]); apply Rabs_le.
  - closed_float (f32_lit (-7) 100). rewrite V. lra.
  - closed_float (f32_lit 3 10). rewrite V. lra.
  - closed_float (f32_lit 26 100). rewrite V. lra.
  - closed_float (f32_lit 3 10). rewrite V. lra.
Qed.
