(** Examples for the conditions under which a scan is taken in. *)
From Coq Require Import ZArith List Bool Reals Lra Lia Permutation.
From Flocq Require Import Core BinarySingleNaN.
From Verif Require Import Base F32 FloatFacts Arith Geom NdArray GridMap RayCaster NoiseModel Spec SpecMap SpecNoise SpecRay NdProofs GeomProofs BoundsProofs CloudProofs GridProofs ExpandProofs MapProofs RaysProofs NoiseProofs IntegrateRange MergeProofs ReturnProofs Examples ExamplesMap ExamplesRay ExamplesMerge ExamplesNoise.
Open Scope Z_scope.

(** The first scan of the examples is timely, and it is taken in. *)
Lemma scan1_timely : exists g g1 : grid_map f32, map_range 2 tenth 4 /\ reachable 2 tenth 4 g /\ request_ok 2 tenth (pc_bounds ex_scan1) /\
  gm_expand_bounds g (pc_bounds ex_scan1) f0 = Ret g1 /\
  (forall p, In p (pc_points ex_scan1) -> timely ex_zero p (bmin (gm_bounds g1)) tenth (cell_from_point F32A ex_zero (bmin (gm_bounds g1)) tenth) (cell_from_point F32A p (bmin (gm_bounds g1)) tenth)) /\
  exists fuel g', integrate_point_cloud fuel (fun s => s) (fun s => s) ex_lidar g ex_zero ex_scan1 = Ret g'.
Proof.
  destruct ex_in_range as (g & g1 & R & E & I & H). exists g, g1. split; [exact ex_map_range|]. split; [exact R|]. split; [exact ex_scan1_ok|]. split; [exact E|].
  assert (R1 : reachable 2 tenth 4 g1) by (eapply reach_expand; [exact R|exact ex_scan1_ok|exact E]).
  destruct (wf_of_reachable 2 tenth 4 g1 ex_map_range R1) as [cb W]. pose proof (wf_covers _ _ _ _ _ ex_map_range W) as C.
  assert (LB : length (bmin (gm_bounds g1)) = 2%nat). { pose proof (Forall2_length _ _ _ (cc_min _ _ _ _ _ C)) as L. destruct (cc_ordered _ _ _ _ _ C) as (L1 & _). unfold cell, point in *. congruence. }
  split.
  - intros p Hp. destruct (H p Hp) as (_ & S & _). apply (range_timely 2); auto.
    + rewrite ex_points1 in Hp. destruct Hp as [<- |[<- |[]]]; reflexivity.
    + apply S.
  - exists 3072%nat. apply (integrate_in_range 2 tenth 4 3072 (fun s => s) (fun s => s) ex_lidar g g1 ex_zero ex_scan1); auto; try reflexivity.
    + exact ex_map_range.
    + intro s. apply Permutation_refl.
    + intro s. apply Permutation_refl.
    + exact ex_scan1_ok.
Qed.
(** A ray that returns. *)
Lemma sloped_ends : timely ex_o sl_e ex_b f1 (cell_from_point F32A ex_o ex_b f1) (cell_from_point F32A sl_e ex_b f1) /\
  ends_ray ex_o ex_b f1 f1 (cell_from_point F32A ex_o ex_b f1) (cell_from_point F32A sl_e ex_b f1) [2; 1; 0].
Proof.
  split; [apply (range_timely 3); auto; apply sloped_cells|]. right. split; [vm_compute; discriminate|]. split; [vm_compute; discriminate|]. split; vm_compute; reflexivity.
Qed.
(** What the scan leaves: it is timely for the map it leaves, and stops in the cell of its first point. *)
Lemma scan1_writes : exists g g' : grid_map f32, exists fuel, map_range 2 tenth 4 /\ reachable 2 tenth 4 g /\ request_ok 2 tenth (pc_bounds ex_scan1) /\
  integrate_point_cloud fuel (fun s => s) (fun s => s) ex_lidar g ex_zero ex_scan1 = Ret g' /\
  let b := bmin (gm_bounds g') in let oc := cell_from_point F32A ex_zero b tenth in
  (forall p, In p (pc_points ex_scan1) -> timely ex_zero p b tenth oc (cell_from_point F32A p b tenth)) /\
  exists p c, In p (pc_points ex_scan1) /\ stops_at 2 ex_zero p b tenth (max_range ex_lidar) oc (cell_from_point F32A p b tenth) c.
Proof.
  destruct scan1_timely as (g & g1 & M & R & RQ & E & TI & fuel & g' & EI). exists g, g', fuel. split; [exact M|]. split; [exact R|]. split; [exact RQ|]. split; [exact EI|].
  assert (Of : is_order (fun s : list cell => s)) by (intro s; apply Permutation_refl).
  destruct (wf_of_reachable 2 tenth 4 g M R) as [cb W]. pose proof (cc_storage _ _ _ _ _ (wf_covers _ _ _ _ _ M W)) as ST.
  destruct (integrate_spec fuel _ _ ex_lidar g ex_zero ex_scan1 g' Of Of ST EI) as (g1' & free & occ & E1' & CR & _ & _ & _ & EB & _).
  assert (g1' = g1) by congruence. subst g1'. rewrite EB. cbv zeta. split; [exact TI|].
  assert (R1 : reachable 2 tenth 4 g1) by (eapply reach_expand; [exact R|exact ex_scan1_ok|exact E]).
  destruct (wf_of_reachable 2 tenth 4 g1 M R1) as [cb1 W1]. pose proof (wf_covers _ _ _ _ _ M W1) as C.
  assert (LB : length (bmin (gm_bounds g1)) = 2%nat). { pose proof (Forall2_length _ _ _ (cc_min _ _ _ _ _ C)) as L. destruct (cc_ordered _ _ _ _ _ C) as (L1 & _). unfold cell, point in *. congruence. }
  destruct (cast_rays_sets _ _ _ _ _ _ _ _ CR) as (RT & _). rewrite (cc_resolution _ _ _ _ _ C) in RT.
  rewrite ex_points1 in *. pose (p := [f32_lit 22 100; f0]). assert (Hp : In p [[f32_lit 22 100; f0]; [f32_lit 1 10; f32_lit 2 10]]) by now left.
  destruct (RT p Hp) as [[rc oe] Ec]. pose proof (TI p Hp) as TP.
  assert (Lo : length ex_zero = 2%nat) by reflexivity. assert (Lp : length p = 2%nat) by reflexivity.
  destruct (ray_result fuel 2 ex_zero p (bmin (gm_bounds g1)) tenth (max_range ex_lidar) rc oe (or_introl eq_refl) Lo Lp LB TP Ec) as (z & P & Iz & Ez & _ & _ & Cz & NE).
  exists p, z. split; [exact Hp|]. split; [exact P|]. split; [exact Iz|]. split; [exact Ez|]. intros x Px L. apply NE, Cz. auto.
Qed.
