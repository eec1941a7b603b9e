(** Concrete scans: examples for the theorems on the noise model and witnesses. *)
From Coq Require Import ZArith List Bool Reals Lra Lia Psatz Permutation.
From Flocq Require Import Core BinarySingleNaN.
From Verif Require Import Base F32 FloatFacts RoundError Arith Geom NdArray GridMap RayCaster NoiseModel Spec SpecMap SpecNoise MathProofs ConverterProofs BoundsProofs CloudProofs NdProofs GridProofs ExpandProofs MapProofs RaysProofs NoiseProofs Examples ExamplesMap ExamplesRay.
Open Scope Z_scope.

Definition as_is : iteration_order := fun s => s.
Lemma as_is_order : is_order as_is. Proof. intro s. apply Permutation_refl. Qed.
Lemma rev_order : is_order (@rev cell). Proof. intro s. apply Permutation_sym, Permutation_rev. Qed.

Definition ex_lidar : lidar :=
  mkLidar (f32_lit 85 100) (f32_lit (-4) 10) (f32_lit (-2) 1) (f32_lit 35 10) f0 (f32_lit 60 1).
Lemma ex_signs : signs_ok ex_lidar.
Proof. repeat split; vm_compute; reflexivity. Qed.
Lemma ex_limits : is_nan (min_logodds ex_lidar) = false /\ is_nan (max_logodds ex_lidar) = false.
Proof. split; vm_compute; reflexivity. Qed.
Lemma ex_probabilities : Forall probability [f32_lit 7 10; f32_lit 4 10; f0; f1; fhalf].
Proof. repeat apply Forall_cons; [..|apply Forall_nil]; apply is_probability_iff; vm_compute; reflexivity. Qed.
Lemma ex_no_probability : ~ probability (f32_lit 11 10) /\ ~ probability fnan.
Proof. split; intro H; apply is_probability_iff in H; vm_compute in H; discriminate H. Qed.

(** Two points seen from the coordinate origin, then one on the other side. *)
Definition ex_scan1 : matrix := mkMatrix 2 2 [f32_lit 22 100; f0; f32_lit 1 10; f32_lit 2 10].
Definition ex_scan2 : matrix := mkMatrix 2 1 [f32_lit (-5) 10; f0].
Definition ex_zero : point := [f0; f0].
Lemma ex_points1 : pc_points ex_scan1 = [[f32_lit 22 100; f0]; [f32_lit 1 10; f32_lit 2 10]]. Proof. reflexivity. Qed.
Lemma ex_points2 : pc_points ex_scan2 = [[f32_lit (-5) 10; f0]]. Proof. reflexivity. Qed.
Lemma ex_scan1_ok : request_ok 2 tenth (pc_bounds ex_scan1).
Proof.
  apply cloud_request; [exact res_tenth|reflexivity|reflexivity|]. rewrite ex_points1. intros p [<- |[<- |[]]]; repeat apply Forall_cons; try apply Forall_nil.
  - within (f32_lit 22 100).
  - within f0.
  - within (f32_lit 1 10).
  - within (f32_lit 2 10).
Qed.
Lemma ex_scan2_ok : request_ok 2 tenth (pc_bounds ex_scan2).
Proof.
  apply cloud_request; [exact res_tenth|reflexivity|reflexivity|]. rewrite ex_points2. intros p [<- |[]]; repeat apply Forall_cons; try apply Forall_nil.
  - within (f32_lit (-5) 10).
  - within f0.
Qed.

Definition tracked (o : occ_map) : occ_map := mkOcc (gm_set_track_changes (om_grid o) true) (om_model o).
Definition cells_eqb (a b : list cell) : bool := if list_eq_dec (list_eq_dec Z.eq_dec : forall x y : cell, {x = y} + {x <> y}) a b then true else false.
Lemma cells_eqb_true : forall a b, cells_eqb a b = true -> a = b.
Proof. unfold cells_eqb. intros a b. now destruct (list_eq_dec _ a b). Qed.

Definition free1 : list cell := [[0; 0]; [1; 0]; [0; 1]; [1; 1]].
Definition occ1 : list cell := [[2; 0]; [1; 2]].
Definition free2 : list cell := [[8; 0]; [7; 0]; [6; 0]; [5; 0]; [4; 0]].
Definition occ2 : list cell := [[3; 0]].
Definition casts (o : occ_map) (cloud : matrix) (free occ : list cell) : bool :=
  match cast_rays 50 ex_zero cloud (gm_bounds (om_grid o)) tenth (max_range ex_lidar) with
  | Ret (f, c) => cells_eqb f free && cells_eqb c occ | _ => false end.
Lemma casts_true : forall o cloud free occ, casts o cloud free occ = true ->
  cast_rays 50 ex_zero cloud (gm_bounds (om_grid o)) tenth (max_range ex_lidar) = Ret (free, occ).
Proof.
  unfold casts. intros o cloud free occ H. destruct (cast_rays _ _ _ _ _ _) as [[f c]| |]; try discriminate H.
  apply andb_true_iff in H. destruct H as [H1 H2]. apply cells_eqb_true in H1, H2. rewrite H1, H2. reflexivity.
Qed.

Lemma ex_scans : exists o0 o1 o2, om_new 2 ex_lidar tenth 4 = Ret o0 /\
  om_integrate 50 as_is as_is (tracked o0) ex_zero ex_scan1 = Ret o1 /\
  om_integrate 50 as_is as_is o1 ex_zero ex_scan2 = Ret o2 /\
  gm_changed_cells (om_grid o1) = free1 ++ occ1 /\
  gm_changed_cells (om_grid o2) = (free1 ++ occ1) ++ free2 ++ occ2 /\
  (casts o1 ex_scan1 free1 occ1 = true /\ casts o2 ex_scan2 free2 occ2 = true) /\
  cb_from_bounds (gm_bounds (om_grid o1)) tenth = mkCB [0; 0] [4; 4] /\
  cb_from_bounds (gm_bounds (om_grid o2)) tenth = mkCB [-8; 0] [4; 4].
Proof.
  pose (P := fun o0 => match om_integrate 50 as_is as_is (tracked o0) ex_zero ex_scan1 with Ret o1 =>
    match om_integrate 50 as_is as_is o1 ex_zero ex_scan2 with Ret o2 =>
      cells_eqb (gm_changed_cells (om_grid o1)) (free1 ++ occ1) && cells_eqb (gm_changed_cells (om_grid o2)) ((free1 ++ occ1) ++ free2 ++ occ2) &&
      casts o1 ex_scan1 free1 occ1 && casts o2 ex_scan2 free2 occ2 &&
      cb_eqb (cb_from_bounds (gm_bounds (om_grid o1)) tenth) (mkCB [0; 0] [4; 4]) && cb_eqb (cb_from_bounds (gm_bounds (om_grid o2)) tenth) (mkCB [-8; 0] [4; 4])
    | _ => false end | _ => false end).
  destruct (ret_ex (om_new 2 ex_lidar tenth 4) P) as (o0 & E0 & P0); [unfold P; vm_compute; reflexivity|]. unfold P in P0. clear P.
  exists o0. apply ret_ex in P0. destruct P0 as (o1 & E1 & P1). exists o1. apply ret_ex in P1. destruct P1 as (o2 & E2 & P2). exists o2.
  repeat rewrite andb_true_iff in P2. destruct P2 as (((((Q1 & Q2) & Q3) & Q4) & Q5) & Q6).
  split; [assumption|]. split; [assumption|]. split; [assumption|]. split; [now apply cells_eqb_true|]. split; [now apply cells_eqb_true|].
  split; [auto|]. split; now apply cb_eqb_true.
Qed.

(** What was observed where. *)
Definition memb (c : cell) (l : list cell) : bool := existsb (cell_eqb c) l.
Lemma memb_iff : forall c l, memb c l = true <-> In c l.
Proof.
  intros c l. unfold memb. rewrite existsb_exists. split.
  - intros (x & H & E). apply cell_eqb_true in E. now subst.
  - intro H. exists c. split; [assumption|]. now apply cell_eqb_true.
Qed.
Definition see (base : cell) (free occ : list cell) (L : cell -> list bool) (w : cell) : list bool :=
  let at_base := map (map2 Z.add base) in
  L w ++ (if memb w (at_base occ) then [true] else if memb w (at_base free) then [false] else []).
Definition nothing (w : cell) : list bool := [].
Definition log1 : cell -> list bool := see [0; 0] free1 occ1 nothing.
Definition log2 : cell -> list bool := see [-8; 0] free2 occ2 log1.

Lemma see_ok : forall base free occ L,
  (forall c, In c free -> ~ In (map2 Z.add base c) (map (map2 Z.add base) occ)) ->
  let L' := see base free occ L in
  (forall c, In c occ -> L' (map2 Z.add base c) = L (map2 Z.add base c) ++ [true]) /\
  (forall c, In c free -> L' (map2 Z.add base c) = L (map2 Z.add base c) ++ [false]) /\
  (forall w, (forall c, In c occ \/ In c free -> w <> map2 Z.add base c) -> L' w = L w).
Proof.
  intros base free occ L D L'. unfold L', see. split; [|split].
  - intros c H. assert (memb (map2 Z.add base c) (map (map2 Z.add base) occ) = true) as -> by (apply memb_iff, in_map; assumption). reflexivity.
  - intros c H. destruct (memb (map2 Z.add base c) (map (map2 Z.add base) occ)) eqn:E; [apply memb_iff in E; now apply D in E|].
    assert (memb (map2 Z.add base c) (map (map2 Z.add base) free) = true) as -> by (apply memb_iff, in_map; assumption). reflexivity.
  - intros w H. destruct (memb w (map (map2 Z.add base) occ)) eqn:E1.
    { apply memb_iff, in_map_iff in E1. destruct E1 as (c & <- & I). now destruct (H c (or_introl I)). }
    destruct (memb w (map (map2 Z.add base) free)) eqn:E2; [|apply app_nil_r].
    apply memb_iff, in_map_iff in E2. destruct E2 as (c & <- & I). now destruct (H c (or_intror I)).
Qed.

Lemma ex_observed : exists o, observed 2 tenth 4 ex_lidar o log2 /\
  log2 [0; 0] = [false; false] /\ log2 [2; 0] = [true] /\ log2 [-5; 0] = [true] /\ log2 [3; 3] = [] /\
  gm_track_changes (om_grid o) = true /\ storage_ok (gm_data (om_grid o)).
Proof.
  destruct ex_scans as (o0 & o1 & o2 & E0 & E1 & E2 & _ & _ & [K1 K2] & B1 & B2). exists o2.
  assert (H0 : observed 2 tenth 4 ex_lidar (tracked o0) nothing) by (apply obs_track, obs_new; [exact E0|reflexivity]).
  assert (R1 : reachable 2 tenth 4 (om_grid o1)).
  { destruct (observed_facts _ _ _ _ _ _ H0) as [_ R0]. unfold om_integrate in E1. destruct (integrate_point_cloud _ _ _ _ _ _ _) as [g| |] eqn:G; try discriminate E1.
    injection E1 as <-. cbn [om_grid]. eapply integrate_reachable; [exact R0|exact ex_scan1_ok|exact G]. }
  assert (R2 : reachable 2 tenth 4 (om_grid o2)).
  { unfold om_integrate in E2. destruct (integrate_point_cloud _ _ _ _ _ _ _) as [g| |] eqn:G; try discriminate E2.
    injection E2 as <-. cbn [om_grid]. eapply integrate_reachable; [exact R1|exact ex_scan2_ok|exact G]. }
  pose proof (covers_cells_computed _ 2 tenth 4 _ ex_map_range R1) as C1. rewrite B1 in C1.
  pose proof (covers_cells_computed _ 2 tenth 4 _ ex_map_range R2) as C2. rewrite B2 in C2.
  assert (H1 : observed 2 tenth 4 ex_lidar o1 log1).
  { destruct (see_ok [0; 0] free1 occ1 nothing) as (S1 & S2 & S3).
    { intros c [<- |[<- |[<- |[<- |[]]]]] H; apply memb_iff in H; vm_compute in H; discriminate H. }
    apply (obs_cloud _ _ _ _ (tracked o0) nothing 50 as_is as_is ex_zero ex_scan1 o1 _ free1 occ1 log1 H0 as_is_order as_is_order ex_scan1_ok E1 C1); auto.
    now apply casts_true. }
  assert (H2 : observed 2 tenth 4 ex_lidar o2 log2).
  { destruct (see_ok [-8; 0] free2 occ2 log1) as (S1 & S2 & S3).
    { intros c [<- |[<- |[<- |[<- |[<- |[]]]]]] H; apply memb_iff in H; vm_compute in H; discriminate H. }
    apply (obs_cloud _ _ _ _ o1 log1 50 as_is as_is ex_zero ex_scan2 o2 _ free2 occ2 log2 H1 as_is_order as_is_order ex_scan2_ok E2 C2); auto.
    now apply casts_true. }
  split; [exact H2|]. repeat (split; [reflexivity|]). split; [|exact (cc_storage _ _ _ _ _ C2)].
  assert (T : forall o c cl o', om_integrate 50 as_is as_is o c cl = Ret o' -> storage_ok (gm_data (om_grid o)) -> gm_track_changes (om_grid o') = gm_track_changes (om_grid o)).
  { intros o c cl o' E S. unfold om_integrate in E. destruct (integrate_point_cloud _ _ _ _ _ _ _) as [g| |] eqn:G; try discriminate E. injection E as <-. cbn [om_grid].
    destruct (integrate_spec _ _ _ _ _ _ _ _ as_is_order as_is_order S G) as (g1 & fr & oc & _ & _ & _ & _ & _ & _ & _ & _ & T & _). exact T. }
  rewrite (T _ _ _ _ E2 (cc_storage _ _ _ _ _ C1)), (T _ _ _ _ E1); [reflexivity|].
  destruct (observed_facts _ _ _ _ _ _ H0) as [_ R0]. destruct (reachable_covers _ _ _ _ ex_map_range R0) as [cb C]. apply C.
Qed.

Lemma observed_integrated : forall d r t m o L, observed d r t m o L -> integrated d r t m o.
Proof.
  intros d r t m o L H. induction H as [o L E _|o L fuel of oo origin cloud o' cb' free occ L' _ IH Hf Ho _ E _ _ _ _ _|o L x _ IH|o L _ IH].
  - now apply int_new.
  - exact (int_cloud _ _ _ _ _ _ _ _ _ _ _ IH Hf Ho E).
  - now apply int_track.
  - now apply int_clear.
Qed.
Lemma ex_integrated : exists o v, integrated 2 tenth 4 ex_lidar o /\ gm_get (om_grid o) [8; 0] = Ret v /\ fltb v (miss_logodds ex_lidar) = true.
Proof.
  destruct ex_observed as (o & H & L0 & _). destruct (observed_values _ _ _ _ _ _ ex_map_range H) as (cb & C & V & _).
  destruct ex_scans as (o0 & o1 & o2 & E0 & E1 & E2 & _).
  assert (H0 : integrated 2 tenth 4 ex_lidar (tracked o0)) by (apply int_track, int_new; exact E0).
  pose proof (int_cloud _ _ _ _ _ _ _ _ _ _ _ H0 as_is_order as_is_order E1) as H1.
  pose proof (int_cloud _ _ _ _ _ _ _ _ _ _ _ H1 as_is_order as_is_order E2) as H2. clear H L0 C V cb o H0 H1.
  exists o2. cut (exists v, gm_get (om_grid o2) [8; 0] = Ret v /\ fltb v (miss_logodds ex_lidar) = true).
  { intros (v & G & F). exists v. auto. }
  clear H2.
  assert (Q : match om_new 2 ex_lidar tenth 4 with Ret o0 => match om_integrate 50 as_is as_is (tracked o0) ex_zero ex_scan1 with Ret o1 =>
    match om_integrate 50 as_is as_is o1 ex_zero ex_scan2 with Ret o2 => match gm_get (om_grid o2) [8; 0] with Ret v => fltb v (miss_logodds ex_lidar) | _ => false end
    | _ => false end | _ => false end | _ => false end = true) by (vm_compute; reflexivity).
  rewrite E0, E1, E2 in Q. now apply ret_ex in Q.
Qed.

(** Without the expected signs the limits do not hold. *)
Definition bad_lidar : lidar := mkLidar (f32_lit (-5) 1) (f32_lit (-4) 10) (f32_lit (-2) 1) (f32_lit 35 10) f0 (f32_lit 60 1).
Lemma limits_need_signs : exists m o c v, fle (miss_logodds m) f0 /\ fle (min_logodds m) f0 /\ fle f0 (max_logodds m) /\
  integrated 2 tenth 4 m o /\ gm_get (om_grid o) c = Ret v /\ fltb v (min_logodds m) = true.
Proof.
  assert (Q : match om_new 2 bad_lidar tenth 4 with Ret o0 => match om_integrate 50 as_is as_is o0 ex_zero ex_scan1 with Ret o1 =>
    match gm_get (om_grid o1) [2; 0] with Ret v => fltb v (min_logodds bad_lidar) | _ => false end | _ => false end | _ => false end = true) by (vm_compute; reflexivity).
  apply ret_ex in Q. destruct Q as (o0 & E0 & Q). apply ret_ex in Q. destruct Q as (o1 & E1 & Q). apply ret_ex in Q. destruct Q as (v & G & Q).
  exists bad_lidar, o1, [2; 0], v. split; [vm_compute; reflexivity|]. split; [vm_compute; reflexivity|]. split; [vm_compute; reflexivity|]. split; [|auto].
  exact (int_cloud _ _ _ _ _ _ _ _ _ _ _ (int_new _ _ _ _ _ E0) as_is_order as_is_order E1).
Qed.

(** The place of a reported cell number changes when the map grows downwards. *)
Lemma index_moves : exists o1 o2 c, integrated 2 tenth 4 ex_lidar o1 /\
  om_integrate 50 as_is as_is o1 ex_zero ex_scan2 = Ret o2 /\
  In c (gm_changed_cells (om_grid o1)) /\ In c (gm_changed_cells (om_grid o2)) /\
  near_cell tenth [2; 0] (gm_point_from_cell (om_grid o1) c) /\ near_cell tenth [-6; 0] (gm_point_from_cell (om_grid o2) c).
Proof.
  destruct ex_scans as (o0 & o1 & o2 & E0 & E1 & E2 & K1 & K2 & _ & B1 & B2). exists o1, o2, [2; 0].
  assert (H0 : integrated 2 tenth 4 ex_lidar (tracked o0)) by (apply int_track, int_new; exact E0).
  split; [exact (int_cloud _ _ _ _ _ _ _ _ _ _ _ H0 as_is_order as_is_order E1)|]. split; [assumption|].
  split; [rewrite K1; vm_compute; tauto|]. split; [rewrite K2; vm_compute; tauto|].
  assert (R0 : reachable 2 tenth 4 (om_grid (tracked o0))).
  { apply reach_track. unfold om_new in E0. destruct (gm_new _ _ _ _) as [g| |] eqn:G; try discriminate E0. injection E0 as <-. eapply reach_new; exact G. }
  assert (R1 : reachable 2 tenth 4 (om_grid o1)).
  { unfold om_integrate in E1. destruct (integrate_point_cloud _ _ _ _ _ _ _) as [g| |] eqn:G; try discriminate E1.
    injection E1 as <-. cbn [om_grid]. eapply integrate_reachable; [exact R0|exact ex_scan1_ok|exact G]. }
  assert (R2 : reachable 2 tenth 4 (om_grid o2)).
  { unfold om_integrate in E2. destruct (integrate_point_cloud _ _ _ _ _ _ _) as [g| |] eqn:G; try discriminate E2.
    injection E2 as <-. cbn [om_grid]. eapply integrate_reachable; [exact R1|exact ex_scan2_ok|exact G]. }
  pose proof (covers_cells_computed _ 2 tenth 4 _ ex_map_range R1) as C1. rewrite B1 in C1.
  pose proof (covers_cells_computed _ 2 tenth 4 _ ex_map_range R2) as C2. rewrite B2 in C2.
  split.
  - apply (map_points 2 tenth 4 _ _ ex_map_range R1 C1 [2; 0]). split; repeat constructor; lia.
  - apply (map_points 2 tenth 4 _ _ ex_map_range R2 C2 [-6; 0]). split; repeat constructor; lia.
Qed.

(** Finite clouds that make integration panic. *)
Definition ex_edge : matrix := mkMatrix 2 1 [f32_lit 36 100; f0].
Definition behind : point := [f32_lit (-5) 10; f0].
Lemma ex_edge_ok : request_ok 2 tenth (pc_bounds ex_edge).
Proof.
  apply cloud_request; [exact res_tenth|reflexivity|reflexivity|]. intros p [<- |[]]; repeat apply Forall_cons; try apply Forall_nil.
  - change (within_cells (2 ^ 18) tenth (f32_lit 36 100)). within (f32_lit 36 100).
  - change (within_cells (2 ^ 18) tenth f0). within f0.
Qed.
Lemma scan_panics : forall fuel m cloud o, match om_new 2 m tenth 4 with Ret o0 =>
    match om_integrate fuel as_is as_is o0 o cloud with Panic => true | _ => false end | _ => false end = true ->
  exists o0, om_new 2 m tenth 4 = Ret o0 /\ forall of oo, is_order of -> is_order oo -> om_integrate fuel of oo o0 o cloud = Panic.
Proof.
  intros fuel m cloud o Q. apply ret_ex in Q. destruct Q as (o0 & E0 & Q). exists o0. split; [assumption|]. intros of oo Hf Ho.
  assert (R0 : reachable 2 tenth 4 (om_grid o0)).
  { unfold om_new in E0. destruct (gm_new _ _ _ _) as [g| |] eqn:G; try discriminate E0. injection E0 as <-. eapply reach_new; exact G. }
  destruct (reachable_covers _ _ _ _ ex_map_range R0) as [cb C]. unfold om_integrate in *.
  pose proof (integrate_order fuel as_is as_is of oo (om_model o0) (om_grid o0) o cloud as_is_order as_is_order Hf Ho (cc_storage _ _ _ _ _ C)) as S.
  destruct (integrate_point_cloud fuel as_is as_is _ _ _ _); cbn [obind] in Q; try discriminate Q.
  destruct (integrate_point_cloud fuel of oo _ _ _ _); [contradiction S|reflexivity|contradiction S].
Qed.
Lemma edge_panics : exists o0 cloud, om_new 2 ex_lidar tenth 4 = Ret o0 /\ request_ok 2 tenth (pc_bounds cloud) /\
  Forall (Forall finite) (pc_points cloud) /\ inside (pc_bounds cloud) ex_zero /\ signs_ok ex_lidar /\
  forall of oo, is_order of -> is_order oo -> om_integrate 50 of oo o0 ex_zero cloud = Panic.
Proof.
  destruct (scan_panics 50 ex_lidar ex_edge ex_zero) as (o0 & E & H); [vm_compute; reflexivity|]. exists o0, ex_edge.
  split; [assumption|]. split; [exact ex_edge_ok|]. split; [repeat constructor; vm_compute; reflexivity|].
  split; [split; repeat constructor; vm_compute; reflexivity|]. split; [exact ex_signs|exact H].
Qed.
Lemma behind_panics : exists o0 o, om_new 2 ex_lidar tenth 4 = Ret o0 /\ Forall finite o /\
  Forall (within_cells (2 ^ 18) tenth) o /\ request_ok 2 tenth (pc_bounds ex_scan1) /\
  forall of oo, is_order of -> is_order oo -> om_integrate 50 of oo o0 o ex_scan1 = Panic.
Proof.
  destruct (scan_panics 50 ex_lidar ex_scan1 behind) as (o0 & E & H); [vm_compute; reflexivity|]. exists o0, behind.
  split; [assumption|]. split; [repeat constructor; vm_compute; reflexivity|].
  split. { repeat apply Forall_cons; [within (f32_lit (-5) 10)|within f0|apply Forall_nil]. }
  split; [exact ex_scan1_ok|exact H].
Qed.

(** A beam that ends on a border between cells and walks past its end cell, out of the map. *)
Definition corner_scan : matrix := mkMatrix 2 2 [f32_lit 5 100; f32_lit 5 100; f32_lit 51 100; f32_lit 51 100].
Definition corner_sensor : point := [f0; f32_lit 1 10].
Lemma corner_scan_ok : request_ok 2 tenth (pc_bounds corner_scan).
Proof.
  apply cloud_request; [exact res_tenth|reflexivity|reflexivity|].
  change (pc_points corner_scan) with [[f32_lit 5 100; f32_lit 5 100]; [f32_lit 51 100; f32_lit 51 100]].
  intros p [<- |[<-|[]]]; repeat apply Forall_cons; try apply Forall_nil.
  - within (f32_lit 5 100).
  - within (f32_lit 5 100).
  - within (f32_lit 51 100).
  - within (f32_lit 51 100).
Qed.
Lemma corner_safe : forall p, p = corner_sensor \/ In p (pc_points corner_scan) -> Forall2 (axis_safe tenth) p (bmax (pc_bounds corner_scan)).
Proof.
  assert (B : bmax (pc_bounds corner_scan) = [f32_lit 51 100; f32_lit 51 100]) .
  { change (bmax (pc_bounds corner_scan)) with [nth 0 (bmax (pc_bounds corner_scan)) f0; nth 1 (bmax (pc_bounds corner_scan)) f0].
    rewrite (B2SF_inj _ _ (nth 0 (bmax (pc_bounds corner_scan)) f0) (f32_lit 51 100)) by (vm_compute; reflexivity).
    rewrite (B2SF_inj _ _ (nth 1 (bmax (pc_bounds corner_scan)) f0) (f32_lit 51 100)) by (vm_compute; reflexivity). reflexivity. }
  rewrite B. clear B. change (pc_points corner_scan) with [[f32_lit 5 100; f32_lit 5 100]; [f32_lit 51 100; f32_lit 51 100]].
  assert (T : real tenth = (13421773 / 134217728)%R) by (unfold tenth, real; closed_float (f32_lit 1 10); rewrite V; lra).
  closed_float (f32_lit 51 100). closed_float (f32_lit 5 100). closed_float (f32_lit 1 10).
  intros p [-> |[<- |[<-|[]]]]; repeat apply Forall2_cons; try apply Forall2_nil.
  1, 2, 3, 4: left; rewrite T; unfold real; rewrite ?V, ?V0, ?V1; simpl (B2R f0); lra.
  1, 2: right; exists 5; rewrite T; unfold real; rewrite V; lra.
Qed.
Lemma corner_panics : exists o0, om_new 2 ex_lidar tenth 4 = Ret o0 /\ request_ok 2 tenth (pc_bounds corner_scan) /\
  inside (pc_bounds corner_scan) corner_sensor /\
  (forall p, p = corner_sensor \/ In p (pc_points corner_scan) -> Forall2 (axis_safe tenth) p (bmax (pc_bounds corner_scan))) /\
  forall of oo, is_order of -> is_order oo -> om_integrate 2000 of oo o0 corner_sensor corner_scan = Panic.
Proof.
  destruct (scan_panics 2000 ex_lidar corner_scan corner_sensor) as (o0 & E & H); [vm_compute; reflexivity|]. exists o0.
  split; [assumption|]. split; [exact corner_scan_ok|]. split; [split; repeat constructor; vm_compute; reflexivity|]. split; [exact corner_safe|exact H].
Qed.

(** The first scan meets the conditions under which integration returns. *)
Lemma ex_returns : exists g g1 : grid_map f32, reachable 2 tenth 4 g /\ gm_expand_bounds g (pc_bounds ex_scan1) f0 = Ret g1 /\
  in_range (nd_shape (gm_data g1)) (gm_cell_from_point g1 ex_zero) /\
  forall p, In p (pc_points ex_scan1) -> Forall finite p /\ Forall2 (axis_safe tenth) p (bmax (pc_bounds ex_scan1)) /\
     exists rc c, cast_ray F32A 50 ex_zero p (bmin (gm_bounds g1)) tenth f0 = Ret (rc, Some c).
Proof.
  pose (ends := fun (g1 : grid_map f32) p => match cast_ray F32A 50 ex_zero p (bmin (gm_bounds g1)) tenth f0 with Ret (_, Some _) => true | _ => false end).
  assert (Q : match gm_new tenth (bounds_empty 2) 4 f0 with Ret g => match gm_expand_bounds g (pc_bounds ex_scan1) f0 with Ret g1 =>
     cell_eqb (nd_shape (gm_data g1)) [4; 4] && cell_eqb (gm_cell_from_point g1 ex_zero) [0; 0] && forallb (ends g1) (pc_points ex_scan1) | _ => false end | _ => false end = true) by (vm_compute; reflexivity).
  apply ret_ex in Q. destruct Q as (g & E & Q). apply ret_ex in Q. destruct Q as (g1 & E1 & Q). rewrite !andb_true_iff in Q. destruct Q as [[Q1 Q2] Q3].
  exists g, g1. split; [eapply reach_new; exact E|]. split; [exact E1|]. apply cell_eqb_true in Q1, Q2. rewrite Q1, Q2.
  split; [repeat constructor; lia|]. intros p Hp. rewrite forallb_forall in Q3. pose proof (Q3 p Hp) as Q. unfold ends in Q. clear ends Q3 E E1.
  split; [|split].
  - rewrite ex_points1 in Hp. destruct Hp as [<- |[<- |[]]]; repeat constructor; vm_compute; reflexivity.
  - assert (L : forall k x hi, (IZR k * real tenth <= real x <= (IZR k + / 4) * real tenth)%R -> axis_safe tenth x hi) by (intros k x hi H; right; now exists k).
    assert (T : real tenth = (13421773 / 134217728)%R) by (unfold tenth, real; closed_float (f32_lit 1 10); rewrite V; lra).
    change (bmax (pc_bounds ex_scan1)) with [nth 0 (bmax (pc_bounds ex_scan1)) f0; nth 1 (bmax (pc_bounds ex_scan1)) f0].
    rewrite ex_points1 in Hp. destruct Hp as [<- |[<- |[]]]; repeat apply Forall2_cons; try apply Forall2_nil.
    + apply (L 2). rewrite T. unfold real. closed_float (f32_lit 22 100). rewrite V. lra.
    + apply (L 0). rewrite T. unfold real. simpl (B2R f0). lra.
    + apply (L 1). rewrite T. unfold real. closed_float (f32_lit 1 10). rewrite V. lra.
    + apply (L 2). rewrite T. unfold real. closed_float (f32_lit 2 10). rewrite V. lra.
  - destruct (cast_ray _ _ _ _ _ _ _) as [[rc [c|]]| |]; try discriminate Q. eauto.
Qed.

(** The same with the range conditions instead of the rays. *)
Lemma zero_list : forall l : point, forallb (fun x => feqb x f0) l = true -> Forall (fun x : f32 => finite x /\ B2R x = 0%R) l.
Proof.
  intros l H. rewrite forallb_forall in H. apply Forall_forall. intros x Hx. apply H in Hx. clear H.
  destruct x as [s|s| |s m e B]; [split; reflexivity|destruct s; discriminate Hx|discriminate Hx|destruct s; discriminate Hx].
Qed.
Definition scan1_bounds (g : grid_map f32) : bool :=
  match gm_expand_bounds g (pc_bounds ex_scan1) f0 with Ret g1 =>
    cell_eqb (nd_shape (gm_data g1)) [4; 4] && cell_eqb (gm_cell_from_point g1 ex_zero) [0; 0] && forallb (fun x => feqb x f0) (bmin (gm_bounds g1)) | _ => false end.
Lemma ex_scan_ok : forall g, scan1_bounds g = true -> scan_ok 2 tenth g ex_zero ex_scan1.
Proof.
  intros g Q. unfold scan1_bounds in Q. split; [reflexivity|]. split; [reflexivity|]. split; [reflexivity|]. split; [exact ex_scan1_ok|]. intros g1 E1. rewrite E1 in Q.
  destruct ex_returns as (g0 & g1' & _ & _ & _ & AX).
  rewrite !andb_true_iff in Q. destruct Q as [[Q1 Q2] Q3].
  apply cell_eqb_true in Q1, Q2. rewrite Q1, Q2.
  split; [repeat constructor; lia|]. intros p Hp. split; [exact (proj1 (proj2 (AX p Hp)))|]. clear AX E1 Q1 Q2 g g0 g1'.
  apply zero_list in Q3. rewrite ex_points1 in Hp. revert Q3. generalize (bmin (gm_bounds g1)). intros b Q3. clear g1.
  assert (T : B2R tenth = (13421773 / 134217728)%R) by (unfold tenth; closed_float (f32_lit 1 10); rewrite V; lra).
  closed_float (f32_lit 22 100). closed_float (f32_lit 1 10). closed_float (f32_lit 2 10).
  assert (W : forall (n : Z) (x : f32), 10 <= n -> finite x -> (Rabs (B2R x) <= 1 / 2)%R -> within_cells n tenth x).
  { intros n x N F H. apply IZR_le in N. split; [assumption|]. unfold real. rewrite T. lra. }
  assert (Wb : forall n, 10 <= n -> Forall (within_cells n tenth) b).
  { intros n N. eapply Forall_impl; [|exact Q3]. intros x [F Z]. apply W; try assumption. rewrite Z, Rabs_R0. lra. }
  assert (Wo : forall n, 10 <= n -> Forall (within_cells n tenth) ex_zero).
  { intros n N. repeat apply Forall_cons; try apply Forall_nil; apply W; try assumption; try reflexivity; simpl; rewrite Rabs_R0; lra. }
  assert (Wp : forall n, 10 <= n -> Forall (within_cells n tenth) p).
  { intros n N. destruct Hp as [<-|[<-|[]]]; repeat apply Forall_cons; try apply Forall_nil; (apply W; [assumption|fin|]); rewrite ?V, ?V0, ?V1; simpl; apply Rabs_le; lra. }
  split.
  - split; [|split; [apply Wo; lia|split; [apply Wp; lia|split; [apply Wb; lia|]]]].
    + apply range_by; [fin|unfold real; rewrite T; lra|apply Wo; lia|apply Wp; lia|apply Wb; lia|]. unfold real.
      destruct Hp as [<-|[<-|[]]]; repeat apply Forall2_cons; try apply Forall2_nil; rewrite ?V, ?V0, ?V1; simpl (B2R f0);
        first [left; reflexivity|right; rewrite Rabs_left; lra].
    + unfold real. rewrite T. destruct Hp as [<-|[<-|[]]]; repeat apply Forall2_cons; try apply Forall2_nil; rewrite ?V, ?V0, ?V1; simpl (B2R f0); apply Rabs_le; lra.
  - assert (D : forall x n k, (IZR n + / 8 <= x / B2R tenth - / 2 <= IZR n + 1 - / 8)%R -> (/ 8 * B2R tenth <= Rabs (x - (IZR k + / 2) * B2R tenth))%R).
    { intros x n k H. replace (x - (IZR k + / 2) * B2R tenth)%R with ((x / B2R tenth - / 2 - IZR k) * B2R tenth)%R by (field; lra).
      rewrite Rabs_mult, (Rabs_pos_eq (B2R tenth)) by lra. apply Rmult_le_compat_r; [lra|]. apply (off_by _ _ n); lra. }
    intros i k Hi N. unfold real in *. destruct Hp as [<-|[<-|[]]]; (destruct i as [|[|i]]; [..|cbn in Hi; lia]); cbn [nth] in *.
    + apply (D _ 1). rewrite V, T. lra.
    + now elim N.
    + apply (D _ 0). rewrite V0, T. lra.
    + apply (D _ 1). rewrite V1, T. lra.
Qed.
Lemma ex_in_range : exists g g1 : grid_map f32, reachable 2 tenth 4 g /\ gm_expand_bounds g (pc_bounds ex_scan1) f0 = Ret g1 /\
  in_range (nd_shape (gm_data g1)) (gm_cell_from_point g1 ex_zero) /\
  forall p, In p (pc_points ex_scan1) -> Forall2 (axis_safe tenth) p (bmax (pc_bounds ex_scan1)) /\
     ray_short tenth ex_zero p (bmin (gm_bounds g1)) /\ world_clear (/ 8)%R tenth ex_zero p.
Proof.
  assert (Q : match gm_new tenth (bounds_empty 2) 4 f0 with Ret g => scan1_bounds g | _ => false end = true) by (vm_compute; reflexivity).
  apply ret_ex in Q. destruct Q as (g & E & Q). pose proof (ex_scan_ok g Q) as (_ & _ & _ & _ & P). unfold scan1_bounds in Q. apply ret_ex in Q. destruct Q as (g1 & E1 & _).
  exists g, g1. split; [eapply reach_new; exact E|]. split; [exact E1|]. exact (P g1 E1).
Qed.

(** A later scan that does not move the cell numbers. *)
Lemma ex_index_kept : exists o db, reachable 2 tenth 4 (om_grid o) /\ in_range (nd_shape (gm_data (om_grid o))) [11; 2] /\
  bounds_discretized (pc_bounds ex_scan1) tenth true = Ret db /\ Forall2 fle (bmin (gm_bounds (om_grid o))) (bmin db).
Proof.
  destruct ex_observed as (o & H & _). clear H o. destruct ex_scans as (o0 & o1 & o2 & E0 & E1 & E2 & _). exists o2.
  assert (Q : match om_new 2 ex_lidar tenth 4 with Ret o0 => match om_integrate 50 as_is as_is (tracked o0) ex_zero ex_scan1 with Ret o1 =>
    match om_integrate 50 as_is as_is o1 ex_zero ex_scan2 with Ret o2 => match bounds_discretized (pc_bounds ex_scan1) tenth true with Ret db =>
      cell_eqb (nd_shape (gm_data (om_grid o2))) [12; 4] && forallb (fun p => fleb (fst p) (snd p)) (combine (bmin (gm_bounds (om_grid o2))) (bmin db)) && Nat.eqb (length (bmin (gm_bounds (om_grid o2)))) (length (bmin db)) | _ => false end
    | _ => false end | _ => false end | _ => false end = true) by (vm_compute; reflexivity).
  rewrite E0, E1, E2 in Q. apply ret_ex in Q. destruct Q as (db & D & Q). exists db. rewrite !andb_true_iff in Q. destruct Q as [[Q1 Q2] Q3].
  split.
  { assert (R0 : reachable 2 tenth 4 (om_grid (tracked o0))).
    { apply reach_track. unfold om_new in E0. destruct (gm_new _ _ _ _) as [g| |] eqn:G; try discriminate E0. injection E0 as <-. eapply reach_new; exact G. }
    assert (R1 : reachable 2 tenth 4 (om_grid o1)).
    { unfold om_integrate in E1. destruct (integrate_point_cloud _ _ _ _ _ _ _) as [g| |] eqn:G; try discriminate E1.
      injection E1 as <-. cbn [om_grid]. eapply integrate_reachable; [exact R0|exact ex_scan1_ok|exact G]. }
    unfold om_integrate in E2. destruct (integrate_point_cloud _ _ _ _ _ _ _) as [g| |] eqn:G; try discriminate E2.
    injection E2 as <-. cbn [om_grid]. eapply integrate_reachable; [exact R1|exact ex_scan2_ok|exact G]. }
  apply cell_eqb_true in Q1. rewrite Q1. split; [repeat constructor; lia|]. split; [exact D|]. apply Nat.eqb_eq in Q3. clear - Q2 Q3.
  revert Q2 Q3. generalize (bmin (gm_bounds (om_grid o2))) (bmin db). intros a. induction a as [|x a IH]; intros [|y b] Q2 Q3; try discriminate Q3; constructor.
  - cbn [combine forallb] in Q2. apply andb_true_iff in Q2. apply Q2.
  - apply IH; [|now injection Q3]. cbn [combine forallb] in Q2. apply andb_true_iff in Q2. apply Q2.
Qed.

(** A map of 2x2 cells, one of them NaN. *)
Definition ex_small : grid_map f32 :=
  gm_from_ndarray (mkNd [2; 2] [f0; f0; fnan; f1]) tenth (mkBounds [f0; f0] [f32_lit 2 10; f32_lit 2 10]) 4.
Lemma ex_small_storage : storage_ok (gm_data ex_small).
Proof. repeat split; try reflexivity. repeat constructor; discriminate. Qed.
Definition returns {A} (x : outcome A) : bool := match x with Ret _ => true | _ => false end.
Lemma returns_ret : forall {A} (x : outcome A), returns x = true -> exists a, x = Ret a.
Proof. intros A [a| |] H; try discriminate H. now exists a. Qed.
Lemma ex_updates : (exists g, ofold (integrate_hit ex_lidar) ex_small [[0; 1]; [1; 0]; [0; 1]] = Ret g) /\
  (exists g, ofold (integrate_miss ex_lidar) ex_small [[0; 1]; [1; 0]; [0; 1]] = Ret g).
Proof. split; apply returns_ret; vm_compute; reflexivity. Qed.

(** The scan hits the world cells [2; 0] and [1; 2], only passes [1; 0] and stays away from [3; 3]. *)
Lemma ex_scan_world : limit_near (max_range ex_lidar) tenth /\
  (let p := [f32_lit 22 100; f0] in In p (pc_points ex_scan1) /\
   near_world (- / 8)%R tenth [2; 0] (map real p) /\ in_limit (max_range ex_lidar) tenth (dist (map real p) (map real ex_zero)) /\
   near_world (- / 8)%R tenth [1; 0] (seg (map real ex_zero) (map real p) (/ 2)%R)) /\
  (forall q, In q (pc_points ex_scan1) -> ~ near_world (/ 8)%R tenth [1; 0] (map real q)) /\
  (forall q u, In q (pc_points ex_scan1) -> (0 <= u <= 1)%R -> ~ near_world (/ 8)%R tenth [3; 3] (seg (map real ex_zero) (map real q) u)) /\
  (limit_near tenth tenth /\ fltb f0 tenth = true /\ (real tenth + 3 * real tenth < dist (map (fun k => IZR k * real tenth) [3; 3]%Z) (map real ex_zero))%R).
Proof.
  assert (T : B2R tenth = (13421773 / 134217728)%R) by (unfold tenth; closed_float (f32_lit 1 10); rewrite V; lra).
  closed_float (f32_lit 22 100). closed_float (f32_lit 1 10). closed_float (f32_lit 2 10).
  assert (Z0 : B2R f0 = 0%R) by reflexivity.
  assert (S60 : B2R (max_range ex_lidar) = 60%R) by (cbn [max_range ex_lidar]; closed_float (f32_lit 60 1); rewrite V2; lra).
  split. { right. split; [unfold ex_lidar; cbn [max_range]; fin|]. unfold real. rewrite S60, T. lra. }
  split; [|split; [|split]].
  - rewrite ex_points1. split; [now left|]. split; [|split].
    + intros i Hi. unfold real. destruct i as [|[|i]]; [..|cbn in Hi; lia]; cbn [nth map]; rewrite ?V, ?T, ?Z0; apply Rabs_le; lra.
    + right. unfold real. rewrite S60, T. unfold dist. cbn [map map2 ex_zero fold_right]. rewrite V, Z0.
      match goal with |- (sqrt ?x + _ <= _)%R => assert (X : (sqrt x <= / 2)%R) end; [|lra].
      apply Rsqr_incr_0_var; [|lra]. rewrite Rsqr_sqrt; unfold Rsqr; lra.
    + intros i Hi. unfold real. destruct i as [|[|i]]; [..|cbn in Hi; lia]; cbn [nth map seg map2 ex_zero]; rewrite ?V, ?T, ?Z0; apply Rabs_le; lra.
  - rewrite ex_points1. intros q [<-|[<-|[]]] H.
    + specialize (H 0%nat ltac:(cbn; lia)). unfold real in H. cbn [nth map] in H. rewrite V, T in H. apply Rabs_le_inv in H. lra.
    + specialize (H 1%nat ltac:(cbn; lia)). unfold real in H. cbn [nth map] in H. rewrite V1, T in H. apply Rabs_le_inv in H. lra.
  - rewrite ex_points1. intros q u [<-|[<-|[]]] Hu H.
    + specialize (H 0%nat ltac:(cbn; lia)). unfold real in H. cbn [nth map seg map2 ex_zero] in H. rewrite V, T, Z0 in H. apply Rabs_le_inv in H. nra.
    + specialize (H 0%nat ltac:(cbn; lia)). unfold real in H. cbn [nth map seg map2 ex_zero] in H. rewrite V0, T, Z0 in H. apply Rabs_le_inv in H. nra.
  - unfold real. split; [right; split; [unfold tenth; fin|unfold real; rewrite T; lra]|]. split; [vm_compute; reflexivity|].
    unfold dist. cbn [map map2 ex_zero fold_right]. unfold real. rewrite T, Z0. apply Rsqr_incrst_0; [|lra|apply sqrt_pos].
    rewrite Rsqr_sqrt; unfold Rsqr; lra.
Qed.

(** The same scan twice. *)
Definition ex_twice : list (point * matrix) := [(ex_zero, ex_scan1); (ex_zero, ex_scan1)].
Lemma ex_scanned : exists o, scanned 2 tenth 4 ex_lidar o ex_twice /\
  Forall2 (says (max_range ex_lidar) tenth [2; 0]) ex_twice [Some true; Some true] /\
  Forall2 (says (max_range ex_lidar) tenth [1; 0]) ex_twice [Some false; Some false] /\
  Forall2 (says (max_range ex_lidar) tenth [3; 3]) ex_twice [None; None].
Proof.
  assert (Q : match om_new 2 ex_lidar tenth 4 with Ret o0 => scan1_bounds (om_grid o0) &&
    match om_integrate 3072 as_is as_is o0 ex_zero ex_scan1 with Ret o1 => scan1_bounds (om_grid o1) &&
      match om_integrate 3072 as_is as_is o1 ex_zero ex_scan1 with Ret o2 => true | _ => false end | _ => false end | _ => false end = true) by (vm_compute; reflexivity).
  apply ret_ex in Q. destruct Q as (o0 & E0 & Q). apply andb_true_iff in Q. destruct Q as [B0 Q].
  apply ret_ex in Q. destruct Q as (o1 & E1 & Q). apply andb_true_iff in Q. destruct Q as [B1 Q]. apply ret_ex in Q. destruct Q as (o2 & E2 & _).
  exists o2. destruct ex_scan_world as (_ & (P1 & P2 & P3 & P4) & P5 & P6 & _).
  assert (R4 : in_limit (max_range ex_lidar) tenth (/ 2 * dist (map real [f32_lit 22 100; f0]) (map real ex_zero))%R).
  { destruct P3 as [P3|P3]; [now left|right]. assert (0 <= dist (map real [f32_lit 22 100; f0]) (map real ex_zero))%R by apply sqrt_pos. lra. }
  assert (K : forall v w, says (max_range ex_lidar) tenth w (ex_zero, ex_scan1) v -> Forall2 (says (max_range ex_lidar) tenth w) ex_twice [v; v]) by (intros; repeat constructor; assumption).
  split; [|split; [|split]].
  - change ex_twice with (([] ++ [(ex_zero, ex_scan1)]) ++ [(ex_zero, ex_scan1)]).
    apply (scanned_next _ _ _ _ o1 _ 3072 as_is as_is); [apply (scanned_next _ _ _ _ o0 _ 3072 as_is as_is); [now apply scanned_new|exact as_is_order|exact as_is_order|now apply ex_scan_ok|lia|]
      |exact as_is_order|exact as_is_order|now apply ex_scan_ok|lia|].
    + exact E1.
    + exact E2.
  - apply K. exists [f32_lit 22 100; f0]. auto.
  - apply K. split; [|exact P5]. exists [f32_lit 22 100; f0], (/ 2)%R. split; [exact P1|]. split; [lra|]. split; [exact P4|exact R4].
  - apply K. left. exact P6.
Qed.

(** The second scan moves the lower corner of the map. *)
Lemma ex_index_moves : exists o1 o2 cb db, reachable 2 tenth 4 (om_grid o1) /\ covers_cells 2 tenth 4 (om_grid o1) cb /\
  in_range (nd_shape (gm_data (om_grid o1))) [2; 0] /\ request_ok 2 tenth (pc_bounds ex_scan2) /\
  bounds_discretized (pc_bounds ex_scan2) tenth true = Ret db /\
  om_integrate 50 as_is as_is o1 ex_zero ex_scan2 = Ret o2 /\ ~ Forall2 Z.le (cmin cb) (cmin (cells_between tenth db)).
Proof.
  destruct ex_scans as (o0 & o1 & o2 & E0 & E1 & E2 & K1 & K2 & _ & B1 & B2).
  assert (R0 : reachable 2 tenth 4 (om_grid (tracked o0))).
  { apply reach_track. unfold om_new in E0. destruct (gm_new _ _ _ _) as [g| |] eqn:G; try discriminate E0. injection E0 as <-. eapply reach_new; exact G. }
  assert (R1 : reachable 2 tenth 4 (om_grid o1)).
  { unfold om_integrate in E1. destruct (integrate_point_cloud _ _ _ _ _ _ _) as [g| |] eqn:G; try discriminate E1.
    injection E1 as <-. cbn [om_grid]. eapply integrate_reachable; [exact R0|exact ex_scan1_ok|exact G]. }
  pose proof (covers_cells_computed _ 2 tenth 4 _ ex_map_range R1) as C1. rewrite B1 in C1.
  destruct (ret_ex (bounds_discretized (pc_bounds ex_scan2) tenth true) (fun db => Z.ltb (hd 0 (cmin (cells_between tenth db))) 0)) as (db & D & Q); [vm_compute; reflexivity|].
  exists o1, o2. eexists. exists db. split; [exact R1|]. split; [exact C1|].
  split; [rewrite (cc_shape _ _ _ _ _ C1); repeat constructor; lia|]. split; [exact ex_scan2_ok|]. split; [exact D|]. split; [exact E2|].
  clear -Q. cbn [cmin]. revert Q. generalize (cmin (cells_between tenth db)). intros w Q F. inversion F as [|x y l l' Hx F']; subst. cbn [hd] in Q. apply Z.ltb_lt in Q. lia.
Qed.
