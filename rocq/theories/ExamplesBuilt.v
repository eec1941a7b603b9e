(** Boxes whose corners are off the centres of their cells. *)
From Coq Require Import ZArith List Bool Reals Lra Lia.
From Flocq Require Import Core BinarySingleNaN.
From Verif Require Import Base F32 FloatFacts Arith Geom NdArray GridMap Spec SpecMap SpecBuilt MathProofs ExpandProofs Examples ExamplesMap BuiltProofs.
Import ListNotations.
Open Scope R_scope.

Lemma short_example : exists g g' : grid_map Z, built tenth 2 ex_short g /\ gm_expand_bounds g ex_request 0%Z = Ret g' /\ g' <> g /\
  in_range (nd_shape (gm_data g)) [1; 1]%Z.
Proof.
  pose (P := fun g : grid_map Z => match gm_expand_bounds g ex_request 0%Z with Ret g' =>
    shape_is g [2; 2]%Z && negb (shape_is g' [2; 2]%Z) | _ => false end).
  destruct (ret_ex (gm_new tenth ex_short 2 0%Z) P) as (g & E0 & P0); [unfold P; vm_compute; reflexivity|].
  unfold P in P0. clear P. apply ret_ex in P0. destruct P0 as (g' & E1 & P1). exists g, g'.
  apply andb_true_iff in P1. destruct P1 as [S S'].
  split; [now apply (built_new _ _ _ 0%Z)|]. split; [exact E1|]. split; [intros ->; rewrite S in S'; discriminate S'|].
  unfold shape_is in S. apply cell_eqb_true in S. rewrite S. repeat constructor; lia.
Qed.

Lemma off_value : forall r x n, 0 < real r -> Rabs (real x - IZR n * real r) < 7 / 16 * real r ->
  off_centre r n (real x / real r - IZR n) x.
Proof.
  intros r x n P H. split; [field; lra|].
  apply Rmult_lt_reg_r with (real r); [exact P|]. rewrite <- (Rabs_pos_eq (real r)) at 2 by lra. rewrite <- Rabs_mult.
  replace ((real x / real r - IZR n) * real r) with (real x - IZR n * real r) by (field; lra). exact H.
Qed.

Definition bx_fits : bounds := mkBounds [f32_lit 12 100; f32_lit (-28) 100] [f32_lit 43 100; f32_lit 61 100].

Ltac values x y :=
  unfold real; closed_float (f32_lit 1 10); closed_float x; closed_float y.

Lemma off_diff : forall r x y m n, 0 < real r ->
  real x / real r - IZR m - (real y / real r - IZR n) = (real x - real y - (IZR m - IZR n) * real r) / real r.
Proof. intros r x y m n P. field. lra. Qed.

Lemma tenth_pos : 0 < real tenth.
Proof. unfold real, tenth. closed_float (f32_lit 1 10). rewrite V. lra. Qed.

Lemma bx_axis : forall x y m n, Rabs (real x - IZR m * real tenth) < 7 / 16 * real tenth -> Rabs (real y - IZR n * real tenth) < 7 / 16 * real tenth ->
  exists f h, ((exists k, off_centre tenth k f x) /\ (exists k, off_centre tenth k h y)) /\
  f - h = (real x - real y - (IZR m - IZR n) * real tenth) / real tenth.
Proof.
  intros x y m n H1 H2. exists (real x / real tenth - IZR m), (real y / real tenth - IZR n). split.
  - split; [exists m|exists n]; (apply off_value; [exact tenth_pos|assumption]).
  - apply off_diff. exact tenth_pos.
Qed.

Lemma bx_case : exists g : grid_map Z, request_ok 2 tenth bx_fits /\ built tenth 4 bx_fits g /\ request_ok 2 tenth ex_request /\
  forall i, (i < 2)%nat -> exists f h, corners_off tenth bx_fits i f h /\ Rabs (f - h) < 3 / 8.
Proof.
  assert (R : request_ok 2 tenth bx_fits).
  { split; [|split].
    - repeat split; try reflexivity. repeat constructor; vm_compute; reflexivity.
    - repeat apply Forall_cons; [| |apply Forall_nil]; [within (f32_lit 12 100)|within (f32_lit (-28) 100)].
    - repeat apply Forall_cons; [| |apply Forall_nil]; [within (f32_lit 43 100)|within (f32_lit 61 100)]. }
  destruct (new_for_box 2 tenth 4 bx_fits 0%Z) as (g & E & B).
  { split; [left; reflexivity|]. split; [apply res_tenth|lia]. } { exact R. }
  exists g. split; [exact R|]. split; [exact B|]. split.
  { split; [|split].
    - repeat split; try reflexivity. repeat constructor; vm_compute; reflexivity.
    - repeat apply Forall_cons; [| |apply Forall_nil]; within (f32_lit 1 10).
    - repeat apply Forall_cons; [| |apply Forall_nil]; within f1. }
  pose proof tenth_pos as P.
  assert (less : forall u v, Rabs u < v * real tenth -> Rabs (u / real tenth) < v).
  { intros u v H. unfold Rdiv. rewrite Rabs_mult, (Rabs_pos_eq (/ real tenth)) by (left; now apply Rinv_0_lt_compat).
    apply Rmult_lt_reg_r with (real tenth); [exact P|]. replace (Rabs u * / real tenth * real tenth) with (Rabs u) by (field; lra). exact H. }
  intros [|[|i]] Hi; [| |lia].
  - destruct (bx_axis (f32_lit 12 100) (f32_lit 43 100) 1 4) as (f & h & O & D).
    1,2: unfold tenth; values (f32_lit 12 100) (f32_lit 43 100); rewrite V, ?V0, ?V1; apply Rabs_lt; lra.
    exists f, h. split; [exact O|]. rewrite D. apply less. unfold tenth; values (f32_lit 12 100) (f32_lit 43 100). rewrite V, V0, V1. apply Rabs_lt. lra.
  - destruct (bx_axis (f32_lit (-28) 100) (f32_lit 61 100) (-3) 6) as (f & h & O & D).
    1,2: unfold tenth; values (f32_lit (-28) 100) (f32_lit 61 100); rewrite V, ?V0, ?V1; apply Rabs_lt; lra.
    exists f, h. split; [exact O|]. rewrite D. apply less. unfold tenth; values (f32_lit (-28) 100) (f32_lit 61 100). rewrite V, V0, V1. apply Rabs_lt. lra.
Qed.

Lemma bx_fits_case : exists g : grid_map Z, request_ok 2 tenth bx_fits /\ built tenth 4 bx_fits g /\ request_ok 2 tenth ex_request /\
  forall i, (i < 2)%nat -> exists f h, corners_off tenth bx_fits i f h /\ f - h < 3 / 8.
Proof.
  destruct bx_case as (g & R & B & Q & H). exists g. split; [exact R|]. split; [exact B|]. split; [exact Q|].
  intros i Hi. destruct (H i Hi) as (f & h & O & L). exists f, h. split; [exact O|]. apply Rabs_lt_inv in L. lra.
Qed.

Lemma bx_loses : exists (g g' : grid_map Z) f h, request_ok 2 tenth ex_short /\ built tenth 2 ex_short g /\ request_ok 2 tenth ex_request /\
  (forall j, (j < 2)%nat -> corners_off tenth ex_short j f h) /\ f - h < - (5 / 8) /\
  gm_expand_bounds g ex_request 0%Z = Ret g' /\ g' <> g /\ in_range (nd_shape (gm_data g)) [1; 1]%Z.
Proof.
  destruct short_example as (g & g' & B & E & N & Rg).
  pose proof tenth_pos as P.
  destruct (bx_axis (f32_lit 6 100) (f32_lit 24 100) 1 2) as (f & h & O & D).
  1,2: unfold tenth; values (f32_lit 6 100) (f32_lit 24 100); rewrite V, ?V0, ?V1; apply Rabs_lt; lra.
  exists g, g', f, h. split; [exact ex_short_ok|]. split; [exact B|]. split; [exact ex_request_ok|]. split.
  { intros [|[|j]] Hj; [exact O|exact O|lia]. }
  split; [|split; [exact E|split; [exact N|exact Rg]]].
  rewrite D. apply Rmult_lt_reg_r with (real tenth); [exact P|]. unfold Rdiv. rewrite Rmult_assoc, Rinv_l, Rmult_1_r by lra.
  unfold tenth; values (f32_lit 6 100) (f32_lit 24 100). rewrite V, V0, V1. lra.
Qed.

Lemma bx_panics : exists (g : grid_map Z) f h, request_ok 2 tenth ex_unaligned /\ built tenth 2 ex_unaligned g /\ request_ok 2 tenth ex_request /\
  corners_off tenth ex_unaligned 0 f h /\ 5 / 8 < f - h /\ leaves tenth ex_unaligned ex_request 1.
Proof.
  assert (R : request_ok 2 tenth ex_unaligned).
  { split; [|split].
    - repeat split; try reflexivity. repeat constructor; vm_compute; reflexivity.
    - repeat apply Forall_cons; [| |apply Forall_nil]; within (f32_lit 4 100).
    - repeat apply Forall_cons; [| |apply Forall_nil]; within (f32_lit 26 100). }
  destruct (new_for_box 2 tenth 2 ex_unaligned 0%Z) as (g & E & B).
  { split; [left; reflexivity|]. split; [apply res_tenth|lia]. } { exact R. }
  pose proof tenth_pos as P.
  assert (less : forall u v, v * real tenth < u -> v < u / real tenth).
  { intros u v H. apply Rmult_lt_reg_r with (real tenth); [exact P|]. replace (u / real tenth * real tenth) with u by (field; lra). exact H. }
  destruct (bx_axis (f32_lit 4 100) (f32_lit 26 100) 0 3) as (f & h & O & D).
  1,2: unfold tenth; values (f32_lit 4 100) (f32_lit 26 100); rewrite V, ?V0, ?V1; apply Rabs_lt; lra.
  exists g, f, h. split; [exact R|]. split; [exact B|]. split.
  { split; [|split].
    - repeat split; try reflexivity. repeat constructor; vm_compute; reflexivity.
    - repeat apply Forall_cons; [| |apply Forall_nil]; within (f32_lit 1 10).
    - repeat apply Forall_cons; [| |apply Forall_nil]; within f1. }
  split; [exact O|]. split.
  - rewrite D. apply less. unfold tenth; values (f32_lit 4 100) (f32_lit 26 100). rewrite V, V0, V1. lra.
  - right. change (real (f32_lit 26 100) + real tenth <= real f1). unfold tenth, real. rewrite f1_real.
    closed_float (f32_lit 1 10). closed_float (f32_lit 26 100). rewrite V, V0. lra.
Qed.
