(** Maps that grow in different ways. *)
From Coq Require Import ZArith List Bool Reals Lra Lia.
From Flocq Require Import Core BinarySingleNaN.
From Verif Require Import Base F32 Arith Geom NdArray GridMap RayCaster NoiseModel Spec SpecMap SpecNoise SpecOdds GridProofs ExpandProofs MapProofs NoiseProofs Examples ExamplesMap ExamplesNoise Viz SpecViz VizProofs ProgramProofs SettleProofs ExamplesLive ExamplesForget ExamplesSettle SpecExtent ExtentProofs.
Open Scope Z_scope.

Lemma grown_some : forall A d r t bs (v : A), map_range d r t -> Forall (request_ok d r) bs -> (exists g, gm_new r (bounds_empty d) t v = Ret g) -> exists g : grid_map A, grown d r t bs g.
Proof.
  intros A d r t bs v M F [g0 E0]. induction bs as [|b bs IH] using rev_ind; [exists g0; now apply grown_new with v|].
  apply Forall_app in F. destruct F as [F1 F2]. inversion_clear F2 as [|? ? RQ _]. destruct (IH F1) as [g G]. destruct (grown_sized A d r t bs g M G) as [cb [W _ _ _]].
  destruct (expand_step d r t g cb b v M W RQ) as (db & g' & cb' & u & _ & E & _). exists g'. exact (grown_expand d r t bs g b v g' G RQ E).
Qed.

(** The two boxes of C24's example and the box around them. *)
Definition ex_around : bounds := mkBounds [f32_lit (-1) 1; f32_lit (-2) 10] [f32_lit 25 100; f32_lit 7 10].
Lemma ex_hull : hull 2 [ex_b1; ex_b2] ex_around /\ hull 2 [ex_around] ex_around.
Proof.
  closed_float (f32_lit (-36) 100). closed_float (f32_lit (-11) 100). closed_float (f32_lit 25 100). closed_float (f32_lit 1 10).
  closed_float (f32_lit (-1) 1). closed_float (f32_lit (-2) 10). closed_float (f32_lit 7 10).
  split; (split; [reflexivity|]; split; [reflexivity|]); intros i Hi; (destruct i as [|[|i]]; [| |lia]); unfold ex_b1, ex_b2, ex_around; cbn [nth bmin bmax]; unfold real.
  1-2: split; [exists ex_b2; split; [right; now left|reflexivity]|]; (split; [first [exists ex_b1; split; [now left|reflexivity]|exists ex_b2; split; [right; now left|reflexivity]]|]).
  3-4: split; [exists ex_around; split; [now left|reflexivity]|]; split; [exists ex_around; split; [now left|reflexivity]|].
  all: repeat (apply Forall_cons; [cbn [nth bmin bmax]; rewrite ?V, ?V0, ?V1, ?V2, ?V3, ?V4, ?V5; simpl (B2R f0); lra|]); apply Forall_nil.
Qed.
Lemma ex_new_z : exists g : grid_map Z, gm_new tenth (bounds_empty 2) 4 7 = Ret g.
Proof.
  assert (Q : match gm_new tenth (bounds_empty 2) 4 7 with Ret _ => true | _ => false end = true) by (vm_compute; reflexivity).
  destruct (gm_new tenth (bounds_empty 2) 4 7) as [g| |]; try discriminate Q. eexists. reflexivity.
Qed.
Lemma ex_grown : (exists g : grid_map Z, grown 2 tenth 4 [ex_b1; ex_b2] g) /\ (exists g : grid_map Z, grown 2 tenth 4 [ex_around] g).
Proof.
  pose proof ex_b1_ok as O1. pose proof ex_b2_ok as O2. pose proof (hull_request 2 tenth [ex_b1; ex_b2] ex_around (or_introl eq_refl) (Forall_cons _ O1 (Forall_cons _ O2 (Forall_nil _))) (proj1 ex_hull)) as O3.
  split; apply (grown_some Z 2 tenth 4 _ 7 ex_map_range); try exact ex_new_z; repeat apply Forall_cons; try apply Forall_nil; assumption.
Qed.
Lemma ex_between : between 0 (-1) 1 [ex_b1; ex_b2].
Proof.
  closed_float (f32_lit (-36) 100). closed_float (f32_lit 25 100). closed_float (f32_lit (-1) 1).
  unfold ex_b1, ex_b2, between, real. repeat (apply Forall_cons; [cbn [nth bmin bmax]; rewrite ?V, ?V0, ?V1; simpl (B2R f0); lra|]). apply Forall_nil.
Qed.

(** A box a hundredth of a cell wide that touches four cells of two tiles: eight cells. *)
Definition ex_thin : bounds := mkBounds [f32_lit 3999 10000; f0] [f32_lit 4 10; f0].
Lemma ex_thin_ok : request_ok 2 tenth ex_thin.
Proof.
  closed_float (f32_lit 3999 10000). closed_float (f32_lit 4 10). pose proof tenth_value as T.
  assert (N : forall x, In x [f32_lit 3999 10000; f0; f32_lit 4 10] -> within_cells (2 ^ 18) tenth x).
  { intros x Hx. assert (K : within_cells (2 ^ 14) tenth x).
    { destruct Hx as [<-|[<-|[<-|[]]]]; (apply near14; [fin|]); unfold real; rewrite ?V, ?V0; simpl; apply Rabs_le; lra. }
    destruct K as [F K]. split; [exact F|]. rewrite T in *. change (2 ^ 14) with 16384 in K. change (2 ^ 18) with 262144. lra. }
  split; [split; [reflexivity|split; [reflexivity|repeat constructor; vm_compute; reflexivity]]|].
  split; repeat apply Forall_cons; try apply Forall_nil; apply N; cbn [In]; auto.
Qed.
Lemma ex_thin_size : exists g : grid_map Z, grown 2 tenth 4 [ex_thin] g /\ between 0 (3998 / 10000) (4001 / 10000) [ex_thin] /\
  nth 0 (nd_shape (gm_data g)) 0 = 8 /\ (8 > (4001 / 10000 - 3998 / 10000) / real tenth + 2 * 4 - / 100)%R.
Proof.
  destruct ex_new_z as [g0 E0].
  assert (Q : match gm_new tenth (bounds_empty 2) 4 7 with Ret g => match gm_expand_bounds g ex_thin 7 with Ret g' => nth 0 (nd_shape (gm_data g')) 0 =? 8 | _ => false end | _ => false end = true) by (vm_compute; reflexivity).
  rewrite E0 in Q. destruct (gm_expand_bounds g0 ex_thin 7) as [g| |] eqn:E; try discriminate Q. apply Z.eqb_eq in Q. exists g.
  split; [exact (grown_expand 2 tenth 4 [] g0 ex_thin 7 g (grown_new 2 tenth 4 7 g0 E0) ex_thin_ok E)|].
  split; [|split; [exact Q|]].
  - closed_float (f32_lit 3999 10000). closed_float (f32_lit 4 10). unfold between, ex_thin, real. apply Forall_cons; [cbn [nth bmin bmax]; rewrite V, V0; lra|apply Forall_nil].
  - rewrite tenth_value. lra.
Qed.

(** Two frames in both orders, one of them twice. *)
Lemma ex_scans : exists o o', scanned 2 tenth 100 swing o [(ex_zero, ex_scan1); (ex_zero, ex_scan5)] /\
  scanned 2 tenth 100 swing o' [(ex_zero, ex_scan5); (ex_zero, ex_scan1); (ex_zero, ex_scan5)].
Proof.
  assert (K : forall L, Forall (fun f => frame_ok 2 tenth (fst f) (snd f)) L -> exists o, scanned 2 tenth 100 swing o L).
  { intros L F. apply frames_scanned; [exact ex_range100|lia|apply rec_static_ok|exact (proj2 swing_ok)|apply new_exists|exact F]. }
  destruct (K [(ex_zero, ex_scan1); (ex_zero, ex_scan5)]) as [o H1].
  { exact (Forall_cons (ex_zero, ex_scan1) ex_frame1 (Forall_cons (ex_zero, ex_scan5) ex_frame5 (Forall_nil _))). }
  destruct (K [(ex_zero, ex_scan5); (ex_zero, ex_scan1); (ex_zero, ex_scan5)]) as [o' H2].
  { exact (Forall_cons (ex_zero, ex_scan5) ex_frame5 (Forall_cons (ex_zero, ex_scan1) ex_frame1 (Forall_cons (ex_zero, ex_scan5) ex_frame5 (Forall_nil _)))). }
  exists o, o'. split; [exact H1|exact H2].
Qed.
Lemma ex_program : exists tr s tr' s', reaches rec_blink 2 swing tenth 100 tr s /\ reaches rec_blink 2 swing tenth 100 tr' s' /\
  integrations tr = 2%nat /\ integrations tr' = 3%nat /\ ~ reads_same (grid s) (grid s').
Proof.
  destruct (blink_forever 2 ltac:(discriminate)) as (tr & s & tr' & s' & R & H & I1 & I2 & N). exists tr, s, (tr ++ tr'), s'.
  split; [exact R|]. split; [exact (reaches_run _ _ _ _ _ _ _ _ _ R H)|]. split; [exact I1|]. split; [|exact N]. rewrite integrations_app. lia.
Qed.
