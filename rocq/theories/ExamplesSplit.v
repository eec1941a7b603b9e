(** A scan of two points in two parts. *)
From Coq Require Import ZArith List Bool Reals Lia Permutation.
From Flocq Require Import Core BinarySingleNaN.
From Verif Require Import Base F32 Arith Geom NdArray GridMap RayCaster NoiseModel Spec SpecMap SpecNoise NdProofs GridProofs MapProofs RaysProofs NoiseProofs MergeProofs Examples ExamplesMap ExamplesRay ExamplesNoise ExamplesViz.
Open Scope Z_scope.

Definition part1 : matrix := mkMatrix 2 1 [f32_lit 22 100; f0].
Definition part2 : matrix := mkMatrix 2 1 [f32_lit 1 10; f32_lit 2 10].
(** The same scan with its points in the other order, one of them twice. *)
Definition ex_repeated : matrix := mkMatrix 2 3 [f32_lit 1 10; f32_lit 2 10; f32_lit 22 100; f0; f32_lit 1 10; f32_lit 2 10].

Lemma parts_ok : map_range 2 tenth 4 /\ matrix_ok part1 /\ matrix_ok part2 /\ matrix_ok ex_scan1 /\ matrix_ok ex_repeated /\ nrows ex_repeated = 2%nat /\
  nrows part1 = 2%nat /\ nrows part2 = 2%nat /\ nrows ex_scan1 = 2%nat /\ request_ok 2 tenth (pc_bounds ex_scan1) /\
  (forall p, In p (pc_points ex_scan1) <-> In p (pc_points part1) \/ In p (pc_points part2)) /\
  (forall p, In p (pc_points ex_scan1) <-> In p (pc_points ex_repeated)).
Proof.
  split; [exact ex_map_range|]. do 8 (split; [reflexivity|]). split; [exact ex_scan1_ok|].
  assert (P1 : pc_points part1 = [[f32_lit 22 100; f0]]) by reflexivity. assert (P2 : pc_points part2 = [[f32_lit 1 10; f32_lit 2 10]]) by reflexivity.
  assert (P3 : pc_points ex_repeated = [[f32_lit 1 10; f32_lit 2 10]; [f32_lit 22 100; f0]; [f32_lit 1 10; f32_lit 2 10]]) by reflexivity.
  rewrite ex_points1, P1, P2, P3. split; intro p; cbn [In]; tauto.
Qed.

(** The cell of the sensor is missed by both parts: it is noted once or twice. *)
Lemma parts_taken : exists g g1 gA gB : grid_map f32, reachable 2 tenth 4 g /\ gm_track_changes g = true /\ gm_expand_bounds g (pc_bounds ex_scan1) f0 = Ret g /\
  integrate_point_cloud 50 as_is as_is ex_lidar g ex_zero ex_scan1 = Ret g1 /\
  integrate_point_cloud 50 as_is as_is ex_lidar g ex_zero part1 = Ret gA /\ integrate_point_cloud 50 (@rev cell) as_is ex_lidar gA ex_zero part2 = Ret gB /\
  cast_rays 50 ex_zero part1 (gm_bounds g) tenth (max_range ex_lidar) = Ret ([[0; 0]; [1; 0]], [[2; 0]]) /\
  cast_rays 50 ex_zero part2 (gm_bounds g) tenth (max_range ex_lidar) = Ret ([[0; 0]; [0; 1]; [1; 1]], [[1; 2]]) /\
  gm_get g1 [0; 0] = Ret (f32_lit (-4) 10) /\ gm_get gB [0; 0] = Ret (f32_lit (-8) 10).
Proof.
  pose (C := fun (g : grid_map f32) cloud free occ => match cast_rays 50 ex_zero cloud (gm_bounds g) tenth (max_range ex_lidar) with Ret (f, c) => cells_eqb f free && cells_eqb c occ | _ => false end).
  pose (V := fun (g : grid_map f32) (x : f32) => match gm_get g [0; 0] with Ret v => if sf_dec (B2SF v) (B2SF x) then true else false | _ => false end).
  pose (P := fun g0 => match gm_expand_bounds (gm_set_track_changes g0 true) (pc_bounds ex_scan1) f0 with Ret g =>
    match integrate_point_cloud 50 as_is as_is ex_lidar g ex_zero ex_scan1 with Ret g1 =>
    match integrate_point_cloud 50 as_is as_is ex_lidar g ex_zero part1 with Ret gA =>
    match integrate_point_cloud 50 (@rev cell) as_is ex_lidar gA ex_zero part2 with Ret gB =>
      gm_track_changes g && C g part1 [[0; 0]; [1; 0]] [[2; 0]] && C g part2 [[0; 0]; [0; 1]; [1; 1]] [[1; 2]] && V g1 (f32_lit (-4) 10) && V gB (f32_lit (-8) 10)
    | _ => false end | _ => false end | _ => false end | _ => false end).
  destruct (ret_ex (gm_new tenth (bounds_empty 2) 4 f0) P) as (g0 & E0 & P0); [unfold P, C, V; vm_compute; reflexivity|]. unfold P in P0. clear P.
  apply ret_ex in P0. destruct P0 as (g & E & P0). apply ret_ex in P0. destruct P0 as (g1 & E1 & P0). apply ret_ex in P0. destruct P0 as (gA & EA & P0). apply ret_ex in P0. destruct P0 as (gB & EB & P0).
  rewrite !andb_true_iff in P0. destruct P0 as ((((T & C1) & C2) & V1) & V2).
  assert (HC : forall cloud free occ, C g cloud free occ = true -> cast_rays 50 ex_zero cloud (gm_bounds g) tenth (max_range ex_lidar) = Ret (free, occ)).
  { unfold C. intros cloud free occ H. destruct (cast_rays _ _ _ _ _ _) as [[f c]| |]; try discriminate H. apply andb_true_iff in H. destruct H as [H1 H2]. apply cells_eqb_true in H1, H2. now rewrite H1, H2. }
  assert (HV : forall h x, V h x = true -> gm_get h [0; 0] = Ret x).
  { unfold V. intros h x H. destruct (gm_get h [0; 0]) as [v| |]; try discriminate H. f_equal. destruct (sf_dec (B2SF v) (B2SF x)) as [Q|]; [|discriminate H]. now apply B2SF_inj. }
  assert (R0 : reachable 2 tenth 4 (gm_set_track_changes g0 true)) by (apply reach_track; eapply reach_new; exact E0).
  exists g, g1, gA, gB. split; [eapply reach_expand; [exact R0|exact ex_scan1_ok|exact E]|]. split; [exact T|].
  split; [exact (expand_twice 2 tenth 4 _ _ _ _ _ ex_map_range R0 ex_scan1_ok E)|]. split; [exact E1|]. split; [exact EA|]. split; [exact EB|].
  split; [exact (HC _ _ _ C1)|]. split; [exact (HC _ _ _ C2)|]. split; [exact (HV _ _ V1)|exact (HV _ _ V2)].
Qed.
