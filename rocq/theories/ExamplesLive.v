(** A recording of a static scene: two frames from one place, the second with fewer points. *)
From Coq Require Import ZArith List Bool Reals Lra Lia Permutation.
From Flocq Require Import Core BinarySingleNaN.
From Verif Require Import Base F32 Arith Geom NdArray GridMap RayCaster NoiseModel Spec SpecMap SpecNoise GridProofs MapProofs NoiseProofs Examples ExamplesMap ExamplesNoise Viz SpecViz VizProofs ProgramProofs LiveProofs CornerProofs.
Open Scope Z_scope.

Definition ex_scan4 : matrix := mkMatrix 2 1 [f32_lit 22 100; f0].
Definition rec_static : recording := mkRec [ex_zero; ex_zero] [ex_scan1; ex_scan4].

Lemma ex_points4 : forall p, In p (pc_points ex_scan4) -> In p (pc_points ex_scan1).
Proof. intros p [<-|[]]. rewrite ex_points1. now left. Qed.
Lemma tenth_value : real tenth = (13421773 / 134217728)%R.
Proof. unfold tenth, real. closed_float (f32_lit 1 10). rewrite V. lra. Qed.
Lemma ex_safe : forall p a b, p = ex_zero \/ In p (pc_points ex_scan1) -> Forall2 (axis_safe tenth) p [a; b].
Proof.
  intros p a b Hp.
  assert (L : forall k x hi, (IZR k * real tenth <= real x <= (IZR k + / 4) * real tenth)%R -> axis_safe tenth x hi) by (intros k x hi H; right; now exists k).
  pose proof tenth_value as T. rewrite ex_points1 in Hp.
  destruct Hp as [-> |[<- |[<- |[]]]]; repeat apply Forall2_cons; try apply Forall2_nil.
  - apply (L 0). rewrite T. unfold real. simpl (B2R f0). lra.
  - apply (L 0). rewrite T. unfold real. simpl (B2R f0). lra.
  - apply (L 2). rewrite T. unfold real. closed_float (f32_lit 22 100). rewrite V. lra.
  - apply (L 0). rewrite T. unfold real. simpl (B2R f0). lra.
  - apply (L 1). rewrite T. unfold real. closed_float (f32_lit 1 10). rewrite V. lra.
  - apply (L 2). rewrite T. unfold real. closed_float (f32_lit 2 10). rewrite V. lra.
Qed.
Lemma ex_beams : forall p, In p (pc_points ex_scan1) ->
  Forall2 (fun x y => real x = real y \/ (bpow radix2 (-40) * real tenth <= Rabs (real x - real y))%R) ex_zero p /\
  Forall2 (fun x y => (Rabs (real x - real y) <= 1023 * real tenth)%R) ex_zero p /\ world_clear (/ 8)%R tenth ex_zero p.
Proof.
  intros p Hp. pose proof tenth_value as T. destruct ex_in_range as (g & g1 & _ & _ & _ & AX). destruct (AX p Hp) as (_ & _ & WC). clear AX g g1.
  assert (B : (0 < bpow radix2 (-40) <= / 1024)%R).
  { split; [apply bpow_gt_0|]. replace (/ 1024)%R with (bpow radix2 (-10)) by (unfold bpow; simpl; lra). apply bpow_le. lia. }
  closed_float (f32_lit 22 100). closed_float (f32_lit 1 10). closed_float (f32_lit 2 10).
  split; [|split; [|exact WC]].
  - unfold real in *. rewrite ex_points1 in Hp. rewrite T. destruct Hp as [<-|[<-|[]]]; repeat apply Forall2_cons; try apply Forall2_nil; rewrite ?V, ?V0, ?V1; simpl (B2R f0);
      first [left; reflexivity|right; rewrite Rabs_left; lra].
  - unfold real in *. rewrite ex_points1 in Hp. rewrite T. destruct Hp as [<-|[<-|[]]]; repeat apply Forall2_cons; try apply Forall2_nil; rewrite ?V, ?V0, ?V1; simpl (B2R f0); apply Rabs_le; lra.
Qed.
Lemma near14 : forall x : f32, finite x -> (Rabs (real x) <= 1)%R -> within_cells (2 ^ 14) tenth x.
Proof. intros x F H. split; [assumption|]. rewrite tenth_value. change (2 ^ 14) with 16384. lra. Qed.
Lemma zero14 : Forall (within_cells (2 ^ 14) tenth) ex_zero.
Proof. repeat apply Forall_cons; try apply Forall_nil; (apply near14; [reflexivity|unfold real; simpl; rewrite Rabs_R0; lra]). Qed.
Lemma rec_static_ok : recording_ok 2 tenth 4 rec_static.
Proof.
  split; [split; [reflexivity|discriminate]|]. split; [exact ex_map_range|]. split; [lia|]. split.
  { rewrite tenth_value. assert (bpow radix2 (-30) <= bpow radix2 (-10))%R by (apply bpow_le; lia). assert (bpow radix2 0 <= bpow radix2 30)%R by (apply bpow_le; lia).
    replace (bpow radix2 (-10)) with (/ 1024)%R in * by (unfold bpow; simpl; lra). replace (bpow radix2 0) with 1%R in * by (unfold bpow; simpl; lra). lra. }
  closed_float (f32_lit 22 100). closed_float (f32_lit 1 10). closed_float (f32_lit 2 10).
  assert (N : forall x, In x [f32_lit 22 100; f0; f32_lit 1 10; f32_lit 2 10] -> within_cells (2 ^ 14) tenth x).
  { intros x [<-|[<-|[<-|[<-|[]]]]]; (apply near14; [fin|]); unfold real; rewrite ?V, ?V0, ?V1; simpl; apply Rabs_le; lra. }
  cbn [combine origins clouds rec_static]. repeat apply Forall_cons; [..|apply Forall_nil]; cbn [fst snd].
  - split; [reflexivity|]. split; [reflexivity|]. split; [reflexivity|]. split; [exact zero14|]. split; [apply Forall_forall; exact N|].
    split; [split; repeat constructor; vm_compute; reflexivity|].
    change (bmax (pc_bounds ex_scan1)) with [nth 0 (bmax (pc_bounds ex_scan1)) f0; nth 1 (bmax (pc_bounds ex_scan1)) f0].
    split; [apply ex_safe; now left|]. intros p Hp. split; [apply ex_safe; now right|now apply ex_beams].
  - split; [reflexivity|]. split; [reflexivity|]. split; [reflexivity|]. split; [exact zero14|].
    split; [apply Forall_forall; intros x Hx; apply N; cbn [ex_scan4 mdata In] in *; tauto|].
    split; [split; repeat constructor; vm_compute; reflexivity|].
    change (bmax (pc_bounds ex_scan4)) with [nth 0 (bmax (pc_bounds ex_scan4)) f0; nth 1 (bmax (pc_bounds ex_scan4)) f0].
    split; [apply ex_safe; now left|]. intros p Hp. apply ex_points4 in Hp. split; [apply ex_safe; now right|now apply ex_beams].
Qed.
Lemma rec_static_lowest : first_lowest rec_static.
Proof.
  intros c0 c E H. injection E as <-. assert (Z : bmin (pc_bounds ex_scan1) = bmin (pc_bounds ex_scan4)) by reflexivity.
  assert (K : bmin (pc_bounds c) = bmin (pc_bounds ex_scan1)) by (destruct H as [<-|[<-|[]]]; [reflexivity|exact (eq_sym Z)]).
  rewrite K. generalize (bmin (pc_bounds ex_scan1)). intro l. induction l; constructor; [apply Rle_refl|assumption].
Qed.

(** Both frames hit [2; 0] and pass through [1; 0]; only the first hits [1; 2]. *)
Lemma rec_static_says :
  Forall2 (says (max_range ex_lidar) tenth [2; 0]) (combine (origins rec_static) (clouds rec_static)) [Some true; Some true] /\
  Forall2 (says (max_range ex_lidar) tenth [1; 0]) (combine (origins rec_static) (clouds rec_static)) [Some false; Some false] /\
  Forall2 (says (max_range ex_lidar) tenth [1; 2]) (combine (origins rec_static) (clouds rec_static)) [Some true; None].
Proof.
  destruct ex_scan_world as (_ & (P1 & P2 & P3 & P4) & P5 & _).
  assert (P1' : In [f32_lit 22 100; f0] (pc_points ex_scan4)) by (now left).
  assert (R4 : in_limit (max_range ex_lidar) tenth (/ 2 * dist (map real [f32_lit 22 100; f0]) (map real ex_zero))%R).
  { destruct P3 as [P3|P3]; [now left|right]. assert (0 <= dist (map real [f32_lit 22 100; f0]) (map real ex_zero))%R by apply sqrt_pos. lra. }
  cbn [combine origins clouds rec_static]. split; [|split]; repeat apply Forall2_cons; try apply Forall2_nil.
  - exists [f32_lit 22 100; f0]. auto.
  - exists [f32_lit 22 100; f0]. auto.
  - split; [|exact P5]. exists [f32_lit 22 100; f0], (/ 2)%R. split; [exact P1|]. split; [lra|]. split; [exact P4|exact R4].
  - split; [|intros q Hq; apply P5; now apply ex_points4]. exists [f32_lit 22 100; f0], (/ 2)%R. split; [exact P1'|]. split; [lra|]. split; [exact P4|exact R4].
  - clear. exists [f32_lit 1 10; f32_lit 2 10]. pose proof tenth_value as T. unfold real in *. closed_float (f32_lit 1 10). closed_float (f32_lit 2 10).
    assert (S60 : B2R (max_range ex_lidar) = 60%R) by (cbn [max_range ex_lidar]; closed_float (f32_lit 60 1); rewrite V1; lra).
    split; [cbn [snd]; rewrite ex_points1; right; now left|]. split.
    + intros i Hi. unfold real. destruct i as [|[|i]]; [..|cbn in Hi; lia]; cbn [nth map]; rewrite ?V, ?V0, ?T; apply Rabs_le; lra.
    + right. unfold real. rewrite S60, T. unfold dist. cbn [map map2 ex_zero fold_right fst snd]. rewrite V, V0. simpl (B2R f0).
      match goal with |- (sqrt ?x + _ <= _)%R => assert (X : (sqrt x <= 1)%R) end; [|lra].
      apply Rsqr_incr_0_var; [|lra]. rewrite Rsqr_sqrt; unfold Rsqr; lra.
  - left. clear. intros q u [<-|[]] Hu H. pose proof tenth_value as T. specialize (H 1%nat ltac:(cbn; lia)). unfold real in *. cbn [nth map seg map2 ex_zero fst snd] in H.
    cbn [ex_scan4 mcol mdata nrows map seq nth Nat.mul Nat.add firstn skipn] in H. rewrite T in H. simpl (B2R f0) in H. apply Rabs_le_inv in H. nra.
Qed.
Lemma ex_execution : exists o st th ev, om_new 2 ex_lidar tenth 4 = Ret o /\ execution rec_static o st th ev /\ fair rec_static st th.
Proof.
  assert (Q : match om_new 2 ex_lidar tenth 4 with Ret _ => true | _ => false end = true) by (vm_compute; reflexivity).
  destruct (om_new 2 ex_lidar tenth 4) as [o| |] eqn:E; try discriminate Q. exists o.
  destruct (fair_exists rec_static 2 tenth 4 ex_lidar o rec_static_ok (proj1 ex_scan_world) E) as (st & th & ev & H). exists st, th, ev. split; [reflexivity|exact H].
Qed.
