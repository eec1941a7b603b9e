(** A scan of two clear beams, one cut and one complete, taken into a map. *)
From Coq Require Import ZArith List Bool Reals Lra Lia Permutation.
From Flocq Require Import Core BinarySingleNaN.
From Verif Require Import Base F32 Arith Geom NdArray GridMap RayCaster NoiseModel Spec SpecMap SpecNoise SpecBack SpecMeet NoiseProofs Examples ExamplesMap ExamplesNoise ExamplesViz ExamplesSame.
Open Scope Z_scope.

Definition sm_lidar : lidar := mkLidar (f32_lit 85 100) (f32_lit (-4) 10) (f32_lit (-2) 1) (f32_lit 35 10) f0 sm_m.

Lemma sm_request : request_ok 3 f1 (pc_bounds sm_cloud).
Proof.
  destruct sm_values as (_ & E & _). pose proof sm_p_values as P.
  apply cloud_request; [exact res_one|reflexivity|reflexivity|]. assert (PT : pc_points sm_cloud = [sm_e; sm_p]) by reflexivity. rewrite PT.
  intros p [<-|[<-|[]]]; [apply (values_within _ _ (2 ^ 18) ltac:(lia) E)|apply (values_within _ _ (2 ^ 18) ltac:(lia) P)]; repeat apply Forall_cons; try apply Forall_nil; apply Rabs_le; lra.
Qed.

Lemma sm_map : exists g g1 g' : grid_map f32, map_range 3 f1 2 /\ reachable 3 f1 2 g /\ request_ok 3 f1 (pc_bounds sm_cloud) /\ length sm_o = 3%nat /\
  gm_expand_bounds g (pc_bounds sm_cloud) f0 = Ret g1 /\
  fltb f0 (max_range sm_lidar) = true /\ finite (max_range sm_lidar) /\ (real (max_range sm_lidar) <= 1048576 * real f1)%R /\
  (forall p, In p (pc_points sm_cloud) -> length p = 3%nat /\ clear_ray (max_range sm_lidar) f1 (bmin (gm_bounds g1)) sm_o p) /\
  integrate_point_cloud 3072 as_is as_is sm_lidar g sm_o sm_cloud = Ret g' /\
  gm_get g' [2; 0; 0] = Ret (f32_lit 85 100) /\ gm_get g' [2; 1; 1] = Ret (f32_lit (-4) 10) /\ gm_get g' [3; 1; 1] = Ret f0.
Proof.
  destruct sm_scan as (A & Fm & C & D & _).
  pose (V := fun (g : grid_map f32) c (x : f32) => match gm_get g c with Ret v => if sf_dec (B2SF v) (B2SF x) then true else false | _ => false end).
  pose (P := fun g0 => match gm_expand_bounds g0 (pc_bounds sm_cloud) f0 with Ret g1 =>
    match integrate_point_cloud 3072 as_is as_is sm_lidar g0 sm_o sm_cloud with Ret g' =>
      same_points (bmin (gm_bounds g1)) sm_b && V g' [2; 0; 0] (f32_lit 85 100) && V g' [2; 1; 1] (f32_lit (-4) 10) && V g' [3; 1; 1] f0
    | _ => false end | _ => false end).
  destruct (ret_ex (gm_new f1 (bounds_empty 3) 2 f0) P) as (g0 & E0 & P0); [unfold P, V; vm_compute; reflexivity|]. unfold P in P0. clear P.
  apply ret_ex in P0. destruct P0 as (g1 & E1 & P0). apply ret_ex in P0. destruct P0 as (g' & E' & P0).
  rewrite !andb_true_iff in P0. destruct P0 as (((BM & V1) & V2) & V3). apply same_points_true in BM.
  assert (HV : forall h c x, V h c x = true -> gm_get h c = Ret x).
  { unfold V. intros h c x H. destruct (gm_get h c) as [v| |]; try discriminate H. f_equal. destruct (sf_dec (B2SF v) (B2SF x)) as [Q|]; [|discriminate H]. now apply B2SF_inj. }
  exists g0, g1, g'. split; [split; [now right|]; split; [exact res_one|lia]|]. split; [eapply reach_new; exact E0|]. split; [exact sm_request|]. split; [reflexivity|].
  split; [exact E1|]. split; [exact A|]. split; [exact Fm|]. split; [exact C|]. split; [rewrite BM; exact D|]. split; [exact E'|].
  split; [exact (HV _ _ _ V1)|]. split; [exact (HV _ _ _ V2)|exact (HV _ _ _ V3)].
Qed.
