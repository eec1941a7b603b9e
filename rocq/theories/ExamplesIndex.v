(** Cell numbers after a further cloud, by its points. *)
From Coq Require Import ZArith List Bool Reals Lra Lia.
From Flocq Require Import Core BinarySingleNaN.
From Verif Require Import Base F32 Arith Geom NdArray GridMap RayCaster NoiseModel Spec SpecMap SpecNoise NoiseProofs MapProofs Examples ExamplesMap ExamplesNoise ExamplesShift ExamplesLive.
Open Scope Z_scope.

Definition ix_cloud : matrix := mkMatrix 2 1 [f32_lit 22 100; f32_lit 1 10].
Lemma ix_close : forall p, In p (pc_points ix_cloud) -> Forall (within_cells (2 ^ 18) tenth) p.
Proof. intros p [<- |[]]; repeat apply Forall_cons; try apply Forall_nil; [within (f32_lit 22 100)|within (f32_lit 1 10)]. Qed.
Lemma ix_close2 : forall p, In p (pc_points ex_scan2) -> Forall (within_cells (2 ^ 18) tenth) p.
Proof. rewrite ex_points2. intros p [<- |[]]; repeat apply Forall_cons; try apply Forall_nil; [within (f32_lit (-5) 10)|within f0]. Qed.
Lemma ix_number : forall x n, steps (-30) x = Some n -> real x = (IZR n / 1073741824)%R.
Proof. intros x n H. destruct (steps_ok (-30) x n H) as [_ E]. rewrite E. change (bpow radix2 (-30)) with (/ 1073741824)%R. reflexivity. Qed.
Lemma ix_case : exists o1 o2 o3 cb, reachable 2 tenth 4 (om_grid o1) /\ covers_cells 2 tenth 4 (om_grid o1) cb /\ cmin cb = [0; 0] /\ in_range (nd_shape (gm_data (om_grid o1))) [2; 0] /\
  om_integrate 50 as_is as_is o1 ex_zero ex_scan2 = Ret o2 /\ matrix_ok ex_scan2 /\ nrows ex_scan2 = 2%nat /\ (forall p, In p (pc_points ex_scan2) -> Forall (within_cells (2 ^ 18) tenth) p) /\
  (exists p, In p (pc_points ex_scan2) /\ (real (nth 0 p f0) < (0 - / 5) * real tenth)%R) /\
  om_integrate 50 as_is as_is o1 ex_zero ix_cloud = Ret o3 /\ matrix_ok ix_cloud /\ nrows ix_cloud = 2%nat /\ (forall p, In p (pc_points ix_cloud) -> Forall (within_cells (2 ^ 18) tenth) p) /\
  (forall p, In p (pc_points ix_cloud) -> forall i, (i < 2)%nat -> ((0 + / 5) * real tenth <= real (nth i p f0))%R).
Proof.
  destruct ex_scans as (o0 & o1 & o2 & E0 & E1 & E2 & K1 & K2 & _ & B1 & B2).
  assert (R0 : reachable 2 tenth 4 (om_grid (tracked o0))).
  { apply reach_track. unfold om_new in E0. destruct (gm_new _ _ _ _) as [g| |] eqn:G; try discriminate E0. injection E0 as <-. eapply reach_new; exact G. }
  assert (R1 : reachable 2 tenth 4 (om_grid o1)).
  { unfold om_integrate in E1. destruct (integrate_point_cloud _ _ _ _ _ _ _) as [g| |] eqn:G; try discriminate E1.
    injection E1 as <-. cbn [om_grid]. eapply integrate_reachable; [exact R0|exact ex_scan1_ok|exact G]. }
  pose proof (covers_cells_computed _ 2 tenth 4 _ ex_map_range R1) as C1. rewrite B1 in C1.
  pose (P := fun o0 => match om_integrate 50 as_is as_is (tracked o0) ex_zero ex_scan1 with Ret o1 => match om_integrate 50 as_is as_is o1 ex_zero ix_cloud with Ret _ => true | _ => false end | _ => false end).
  destruct (ret_ex (om_new 2 ex_lidar tenth 4) P) as (o & Eo & Po); [unfold P; vm_compute; reflexivity|]. assert (o = o0) by (rewrite E0 in Eo; injection Eo as <-; reflexivity). subst o. unfold P in Po. clear P Eo.
  apply ret_ex in Po. destruct Po as (o1' & Eo & Po). assert (o1' = o1) by (rewrite E1 in Eo; injection Eo as <-; reflexivity). subst o1'. clear Eo.
  assert (X : exists o3, om_integrate 50 as_is as_is o1 ex_zero ix_cloud = Ret o3) by (destruct (om_integrate 50 as_is as_is o1 ex_zero ix_cloud) as [o3| |]; try discriminate Po; now exists o3). destruct X as [o3 E3].
  exists o1, o2, o3. eexists. split; [exact R1|]. split; [exact C1|]. split; [reflexivity|].
  split; [rewrite (cc_shape _ _ _ _ _ C1); repeat constructor; lia|]. split; [exact E2|]. split; [reflexivity|]. split; [reflexivity|]. split; [exact ix_close2|]. split.
  - exists [f32_lit (-5) 10; f0]. split; [now left|]. cbn [nth]. rewrite (ix_number (f32_lit (-5) 10) (-536870912)) by (vm_compute; reflexivity). rewrite tenth_value. lra.
  - split; [exact E3|]. split; [reflexivity|]. split; [reflexivity|]. split; [exact ix_close|].
    assert (A : exists n, steps (-30) (f32_lit 22 100) = Some n /\ 30000000 <= n) by (eexists; split; [vm_compute; reflexivity|lia]). assert (B : exists n, steps (-30) (f32_lit 1 10) = Some n /\ 30000000 <= n) by (eexists; split; [vm_compute; reflexivity|lia]).
    destruct A as (n & A & An). destruct B as (k & B & Bk). apply ix_number in A, B. apply IZR_le in An, Bk.
    assert (PT : pc_points ix_cloud = [[f32_lit 22 100; f32_lit 1 10]]) by reflexivity. rewrite PT.
    intros p [<-|[]] [|[|i]] Hi; [..|lia]; cbn [nth]; rewrite tenth_value; [rewrite A|rewrite B]; lra.
Qed.
