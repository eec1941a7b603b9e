(** Concrete cases for the properties of the drawing. *)
From Coq Require Import ZArith List Bool Reals Lia Lra Strings.Byte.
From Flocq Require Import Core BinarySingleNaN.
From Verif Require Import Base F32 Arith Geom NoiseModel GridMap Kitti Spec SpecMap SpecNoise SpecKitti MathProofs Viz SpecViz VizProofs Pose SpecPose SpecMain StartProofs Examples ExamplesMap ExamplesNoise ExamplesKitti ExamplesViz ExamplesPose ExamplesScene Draw SpecDraw DrawProofs.
Open Scope Z_scope.

(** The first frame of any recording. *)
Lemma first_frame : forall rec d m r t o, recorded rec -> om_new d m r t = Ret o ->
  exists tr s, reaches rec d m r t tr s /\ render s = RDraw /\ length (started tr) = 1%nat.
Proof.
  intros rec d m r t o [L N] E. destruct (clouds rec) as [|c cs] eqn:Ec; [contradiction|]. destruct (origins rec) as [|p ps] eqn:Ep; [discriminate|].
  assert (S : forall tr s ev s', reaches rec d m r t tr s -> render_step rec s ev s' -> reaches rec d m r t (tr ++ ev) s').
  { intros tr s ev s' (o' & E' & R) St. exists o'. split; [assumption|]. eapply run_step; [exact R|]. apply s_render. exact St. }
  assert (R0 : reaches rec d m r t [] (initial o)). { exists o. split; [assumption|]. constructor. }
  pose proof (S _ _ _ _ R0 (r_ready rec (initial o) eq_refl eq_refl)) as R1.
  epose proof (S _ _ _ _ R1 (r_lock_reports rec ltac:(match type of R1 with reaches _ _ _ _ _ _ ?x => exact x end) eq_refl eq_refl eq_refl)) as R2.
  epose proof (S _ _ _ _ R2 (r_lock_grid rec ltac:(match type of R2 with reaches _ _ _ _ _ _ ?x => exact x end) eq_refl eq_refl eq_refl)) as R3.
  epose proof (S _ _ _ _ R3 (r_consume rec ltac:(match type of R3 with reaches _ _ _ _ _ _ ?x => exact x end) [] eq_refl eq_refl)) as R4.
  epose proof (S _ _ _ _ R4 (r_unlock_grid rec ltac:(match type of R4 with reaches _ _ _ _ _ _ ?x => exact x end) eq_refl)) as R5.
  epose proof (S _ _ _ _ R5 (r_unlock_reports rec ltac:(match type of R5 with reaches _ _ _ _ _ _ ?x => exact x end) eq_refl)) as R6.
  epose proof (S _ _ _ _ R6 (r_store rec ltac:(match type of R6 with reaches _ _ _ _ _ _ ?x => exact x end) eq_refl)) as R7.
  assert (H1 : nth_error (origins rec) 0 = Some p) by now rewrite Ep. assert (H2 : nth_error (clouds rec) 0 = Some c) by now rewrite Ec.
  epose proof (S _ _ _ _ R7 (r_spawn rec ltac:(match type of R7 with reaches _ _ _ _ _ _ ?x => exact x end) p c eq_refl H1 H2)) as R8.
  assert (H3 : length (clouds rec) <> 0%nat) by (rewrite Ec; discriminate).
  epose proof (S _ _ _ _ R8 (r_index rec ltac:(match type of R8 with reaches _ _ _ _ _ _ ?x => exact x end) eq_refl H3)) as R9. eexists _, _. split; [exact R9|]. split; reflexivity.
Qed.

(** Two frames, the second one metre ahead, without points. *)
Definition two_poses : list pose := [((f0, f0, f0), (f1, f0, f0, f0)); ((f1, f0, f0), (f1, f0, f0, f0))].
Definition two_rec : recording := mkRec (map pose_origin two_poses) [mkMatrix 3 0 []; mkMatrix 3 0 []].
Lemma marker_ahead : exists tr s o c points l lines, recorded two_rec /\ reaches two_rec 3 ex_lidar tenth 4 tr s /\ render s = RDraw /\
  started tr = [(o, c)] /\ picture two_poses s = Ret (points, l :: lines) /\ triple o = (0, 0, 0)%R /\ real3 (line_from F32A l) = (1, 0, 0)%R.
Proof.
  assert (Q : match om_new 3 ex_lidar tenth 4 with Ret o => match acts two_rec [] (initial o) (repeat true 9) with
     Some (tr, s) => rpc_eqb (render s) RDraw && Nat.eqb (index s) 1 && match started tr with [(o, c)] => same_points o [f0; f0; f0] | _ => false end | None => false end | _ => false end = true)
    by (vm_compute; reflexivity).
  apply ret_ex in Q. destruct Q as (o & E & Q). destruct (acts _ _ _ _) as [[tr s]|] eqn:A; [|discriminate].
  rewrite !andb_true_iff in Q. destruct Q as [[Q1 Q2] Q3]. apply rpc_eqb_true in Q1. apply Nat.eqb_eq in Q2.
  destruct (started tr) as [|[p c] [|]] eqn:St; try discriminate Q3. apply same_points_true in Q3. subst p.
  exists tr, s, [f0; f0; f0], c. unfold picture. rewrite Q2. do 3 eexists. split; [split; [reflexivity|discriminate]|].
  split; [exists o; split; [assumption|]; eapply acts_ok; [apply run_start|exact A]|]. split; [exact Q1|]. split; [exact St|].
  split; [reflexivity|]. split; [reflexivity|].
  cbn [line_from]. assert (F1 : finite f1) by reflexivity. assert (F0 : finite f0) by reflexivity.
  pose proof (start_exact f1 f0 f0 f0 (f1, f0, f0) F1 F0 F0 F0 (conj F1 (conj F0 F0))) as [_ X]. 
  etransitivity; [exact X|]. unfold real3, real. rewrite f1_real. reflexivity.
Qed.
Lemma two_poses_finite : Forall pose_finite two_poses.
Proof. repeat constructor. Qed.
(** Up to the second start. *)
Lemma marker_then_start : exists tr s tr' s' o c, reaches two_rec 3 ex_lidar tenth 4 tr s /\ render s = RDraw /\ run two_rec s tr' s' /\
  started tr' = [(o, c)] /\ triple o = (1, 0, 0)%R.
Proof.
  assert (Q : match om_new 3 ex_lidar tenth 4 with Ret o => match acts two_rec [] (initial o) (repeat true 9) with
     Some (tr, s) => rpc_eqb (render s) RDraw && match acts two_rec [] s (whole_worker ++ repeat true 9) with Some (tr', s') => match started tr' with [(o, c)] => same_points o [f1; f0; f0] | _ => false end | None => false end | None => false end | _ => false end = true)
    by (vm_compute; reflexivity).
  apply ret_ex in Q. destruct Q as (o & E & Q). destruct (acts two_rec [] (initial o) _) as [[tr s]|] eqn:A; [|discriminate].
  rewrite !andb_true_iff in Q. destruct Q as [Q1 Q2]. apply rpc_eqb_true in Q1. destruct (acts two_rec [] s _) as [[tr' s']|] eqn:A'; [|discriminate].
  destruct (started tr') as [|[p c] [|]] eqn:St; try discriminate Q2. apply same_points_true in Q2. subst p.
  exists tr, s, tr', s', [f1; f0; f0], c. split; [exists o; split; [assumption|]; eapply acts_ok; [apply run_start|exact A]|]. split; [exact Q1|].
  split; [eapply acts_ok; [apply run_start|exact A']|]. split; [exact St|]. unfold triple, real. cbn [nth]. rewrite f1_real. reflexivity.
Qed.

(** The first frame of a folder. *)
Lemma still_marker : exists rec poses tr st, viz_main ex_sys still_lookup [name10; name02] = Ret (Some rec) /\
  snd (oxt_read_from_dir (sys_env ex_sys) (oxts_data (still_lookup name02)) false) = Ret (IoOk poses) /\
  reaches rec 3 ex_lidar tenth 4 tr st /\ render st = RDraw.
Proof.
  assert (O : exists rec, viz_main ex_sys still_lookup [name10; name02] = Ret (Some rec)).
  { apply main_opens. split; [apply ex_args|]. exists name02. split; [reflexivity|]. exists still_vs, still_ms. exact still_drive. }
  destruct O as (rec & E). pose proof (main_recorded _ _ _ _ _ _ _ E eq_refl still_drive ltac:(discriminate)) as RC.
  assert (Q : match om_new 3 ex_lidar tenth 4 with Ret _ => true | _ => false end = true) by (vm_compute; reflexivity).
  destruct (om_new 3 ex_lidar tenth 4) as [o| |] eqn:EO; try discriminate Q.
  destruct (first_frame rec 3 ex_lidar tenth 4 o RC EO) as (tr & st & R & W & _).
  destruct still_drive as (_ & _ & _ & (n1 & O1 & F1) & _).
  exists rec, (frames ex_sys still_vs), tr, st. split; [exact E|]. split; [exact (oxts_read _ _ _ _ O1 F1)|]. auto.
Qed.
Lemma still_sizes : forall k v, nth_error still_vs k = Some v -> angle (oxt_roll v) /\ angle (oxt_pitch v) /\ angle (oxt_yaw v) /\ Forall (sized 200) (coords (position ex_sys still_vs k v)).
Proof.
  intros k v Hv. assert (L : (k < length still_ms)%nat). { destruct still_drive as (_ & _ & L & _). rewrite <- L. apply nth_error_Some. congruence. }
  destruct (nth_error still_ms k) as [m|] eqn:Em; [|apply nth_error_None in Em; lia]. destruct (still_measured k v m Hv Em) as (A1 & A2 & A3 & S & _). auto.
Qed.
