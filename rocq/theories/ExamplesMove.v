(** Examples for moved scenes. *)
From Coq Require Import ZArith List Bool Reals Lra Lia.
From Flocq Require Import Core BinarySingleNaN.
From Verif Require Import Base F32 FloatFacts Arith Geom NdArray GridMap RayCaster NoiseModel Spec SpecMap SpecNoise SpecShift SpecMove NdProofs CastProofs GeomProofs GridProofs RayProofs ExpandProofs MapProofs NoiseProofs ReturnProofs Examples ExamplesMap ExamplesNoise ExamplesShift.
Open Scope Z_scope.

Fixpoint along_b (q : Z) (r : f32) (K : cell) (p p' : point) : bool :=
  match K, p, p' with
  | [], [], [] => true
  | k :: K, x :: p, x' :: p' => match steps q r, steps q x, steps q x' with Some n, Some m, Some m' => m' =? m + k * n | _, _, _ => false end && along_b q r K p p'
  | _, _, _ => false
  end.
Lemma along_ok : forall q r K p p', along_b q r K p p' = true -> moved_by (cells_of (real r) K) (map real p) (map real p').
Proof.
  intros q r K p p'. unfold moved_by, cells_of. rewrite !map_length. revert p p'. induction K as [|k K IH]; intros [|x p] [|x' p'] H; try discriminate H; [repeat split; cbn; lia|].
  cbn [along_b] in H. apply andb_prop in H. destruct H as [A H]. destruct (IH p p' H) as (L & L' & M). split; [cbn [length]; lia|]. split; [cbn [length]; lia|]. intros [|i] Hi; cbn [map nth length] in *.
  - destruct (steps q r) as [n|] eqn:E; [|discriminate A]. destruct (steps q x) as [a|] eqn:E1; [|discriminate A]. destruct (steps q x') as [a'|] eqn:E2; [|discriminate A].
    apply steps_ok in E, E1, E2. destruct E as [_ ->], E1 as [_ ->], E2 as [_ ->]. apply Z.eqb_eq in A. rewrite A, plus_IZR, mult_IZR. ring.
  - apply M. lia.
Qed.
Definition scan_b (q : Z) (r : f32) (K : cell) (o : point) (cloud : matrix) (o' : point) (cloud' : matrix) : bool :=
  along_b q r K o o' && both (along_b q r K) (pc_points cloud) (pc_points cloud').
Lemma scan_by : forall q r K o cloud o' cloud', scan_b q r K o cloud o' cloud' = true -> moved_scan (cells_of (real r) K) o cloud o' cloud'.
Proof.
  intros q r K o cloud o' cloud' H. apply andb_prop in H. destruct H as [A H]. split; [now apply (along_ok q)|]. apply both_forall2 in H. induction H; constructor; [now apply (along_ok q)|assumption].
Qed.
Definition view_b (q : Z) (b : point) (o : point) (cloud : matrix) : bool :=
  forallb (fun p => forallb (units_b q (2 ^ 21)) p && both (counted q Z.leb) b p) (o :: pc_points cloud).
Lemma view_by : forall q b o cloud, view_b q b o cloud = true -> in_view q b o cloud.
Proof.
  intros q b o cloud H p Hp. unfold view_b in H. rewrite forallb_forall in H. specialize (H p). cbv beta in H.
  assert (I : In p (o :: pc_points cloud)) by (destruct Hp as [-> |Hp]; [now left|now right]). apply H in I. apply andb_prop in I. destruct I as [U A]. split; [now apply all_units|now apply (above_ok q)].
Qed.

(** Two scans, and the same scene twenty cells further along the first axis and six along the second. *)
Definition mv_K : cell := [20; 6].
Definition mv_o' : point := [f32_lit 41 4; f32_lit 7 2].
Definition mv_cloud' : matrix := mkMatrix 2 2 [f32_lit 12 1; f32_lit 17 4; f32_lit 21 2; f32_lit 9 2].
Definition mv_o2 : point := [f32_lit 3 4; f0].
Definition mv_cloud2 : matrix := mkMatrix 2 1 [f32_lit 2 1; f32_lit 5 4].
Definition mv_o2' : point := [f32_lit 43 4; f32_lit 3 1].
Definition mv_cloud2' : matrix := mkMatrix 2 1 [f32_lit 12 1; f32_lit 17 4].
Definition mv_hit2 : f32 := fmin (fadd (hit_logodds ex_lidar) (hit_logodds ex_lidar)) (max_logodds ex_lidar).
Definition mv_run (o1 : point) (c1 : matrix) (o2 : point) (c2 : matrix) : outcome (grid_map f32 * grid_map f32 * grid_map f32) :=
  obind sh_start (fun g => obind (integrate_point_cloud 40 as_is as_is ex_lidar g o1 c1) (fun g1 => obind (integrate_point_cloud 40 as_is as_is ex_lidar g1 o2 c2) (fun g2 => Ret (g, g1, g2)))).
Definition near_b (g : grid_map f32) : bool := forallb (units_b (-2) (2 ^ 20)) (bmin (gm_bounds g)).
Definition mv_view (o1 : point) (c1 : matrix) (o2 : point) (c2 : matrix) (x : grid_map f32 * grid_map f32 * grid_map f32) : bool :=
  let '(g, g1, g2) := x in near_b g1 && near_b g2 && view_b (-2) (bmin (gm_bounds g1)) o1 c1 && view_b (-2) (bmin (gm_bounds g2)) o2 c2.
Lemma mv_parts : forall o1 c1 o2 c2, match mv_run o1 c1 o2 c2 with Ret x => mv_view o1 c1 o2 c2 x | _ => false end = true ->
  exists g g1 g2, mv_run o1 c1 o2 c2 = Ret (g, g1, g2) /\ sh_start = Ret g /\ integrate_point_cloud 40 as_is as_is ex_lidar g o1 c1 = Ret g1 /\ integrate_point_cloud 40 as_is as_is ex_lidar g1 o2 c2 = Ret g2 /\
  near_zero (-2) (bmin (gm_bounds g1)) /\ near_zero (-2) (bmin (gm_bounds g2)) /\ in_view (-2) (bmin (gm_bounds g1)) o1 c1 /\ in_view (-2) (bmin (gm_bounds g2)) o2 c2.
Proof.
  intros o1 c1 o2 c2 H. unfold mv_run in *. destruct sh_start as [g| |]; try discriminate H. cbn [obind] in *.
  destruct (integrate_point_cloud 40 as_is as_is ex_lidar g o1 c1) as [g1| |] eqn:E1; try discriminate H. cbn [obind] in *.
  destruct (integrate_point_cloud 40 as_is as_is ex_lidar g1 o2 c2) as [g2| |] eqn:E2; try discriminate H. cbn [obind] in *.
  exists g, g1, g2. do 2 (split; [reflexivity|]). split; [exact E1|]. split; [exact E2|]. unfold mv_view in H.
  apply andb_prop in H. destruct H as [H V2]. apply andb_prop in H. destruct H as [H V1]. apply andb_prop in H. destruct H as [N1 N2].
  split; [now apply all_near|]. split; [now apply all_near|]. split; now apply view_by.
Qed.
Lemma mv_one : match mv_run sh_o sh_cloud mv_o2 mv_cloud2 with Ret x => mv_view sh_o sh_cloud mv_o2 mv_cloud2 x | _ => false end = true.
Proof. vm_compute. reflexivity. Qed.
Lemma mv_two : match mv_run mv_o' mv_cloud' mv_o2' mv_cloud2' with Ret x => mv_view mv_o' mv_cloud' mv_o2' mv_cloud2' x | _ => false end = true.
Proof. vm_compute. reflexivity. Qed.
Definition mv_p : point := [f32_lit 2 1; f32_lit 5 4].
Definition mv_p' : point := [f32_lit 12 1; f32_lit 17 4].
Definition mv_check (g h : grid_map f32) : bool :=
  reads_b g (gm_cell_from_point g mv_p) mv_hit2 && reads_b h (gm_cell_from_point h mv_p') mv_hit2 && cell_eqb (nd_shape (gm_data g)) [8; 4] && cell_eqb (nd_shape (gm_data h)) [28; 12].
Lemma mv_values : match mv_run sh_o sh_cloud mv_o2 mv_cloud2 with Ret (_, _, g) => match mv_run mv_o' mv_cloud' mv_o2' mv_cloud2' with Ret (_, _, h) => mv_check g h | _ => false end | _ => false end = true.
Proof. vm_compute. reflexivity. Qed.
Lemma mv_near_limit : finite (max_range ex_lidar) /\ (real (max_range ex_lidar) <= IZR (2 ^ 21) * bpow radix2 (-2))%R.
Proof.
  destruct (steps_ok (-2) (max_range ex_lidar) 240) as [F E]; [vm_compute; reflexivity|]. split; [exact F|]. rewrite E. apply Rmult_le_compat_r; [apply bpow_ge_0|]. apply IZR_le. lia.
Qed.
Lemma mv_history : exists g h, moved_history 2 half 4 (-2) ex_lidar mv_K g h /\ near_zero (-2) (bmin (gm_bounds g)) /\ near_zero (-2) (bmin (gm_bounds h)) /\
  nd_shape (gm_data g) = [8; 4] /\ nd_shape (gm_data h) = [28; 12] /\
  gm_get g (gm_cell_from_point g mv_p) = Ret mv_hit2 /\ gm_get h (gm_cell_from_point h mv_p') = Ret mv_hit2.
Proof.
  destruct (mv_parts sh_o sh_cloud mv_o2 mv_cloud2 mv_one) as (g & g1 & g2 & R & S & I1 & I2 & N1 & N2 & V1 & V2). destruct (mv_parts mv_o' mv_cloud' mv_o2' mv_cloud2' mv_two) as (h & h1 & h2 & R' & S' & J1 & J2 & N1' & N2' & V1' & V2').
  assert (h = g) by (rewrite S in S'; injection S' as <-; reflexivity). subst h.
  pose proof mv_values as MV. rewrite R, R' in MV. unfold mv_check in MV. clear R R' S'. exists g2, h2.
  apply andb_prop in MV. destruct MV as [MV S2]. apply andb_prop in MV. destruct MV as [MV S1]. apply andb_prop in MV. destruct MV as [Q1 Q2].
  split. { apply (moved_next 2 half 4 (-2) ex_lidar mv_K g1 h1 40 as_is as_is as_is as_is mv_o2 mv_cloud2 mv_o2' mv_cloud2' g2 h2); try exact as_is_order; try assumption.
    - apply (moved_next 2 half 4 (-2) ex_lidar mv_K g g 40 as_is as_is as_is as_is sh_o sh_cloud mv_o' mv_cloud' g1 h1); try exact as_is_order; try assumption.
      + exact (moved_new 2 half 4 (-2) ex_lidar mv_K g S).
      + vm_compute. discriminate.
      + apply (scan_by (-2)). vm_compute. reflexivity.
      + apply (request_by 2 (-2)); vm_compute; reflexivity.
      + apply (request_by 2 (-2)); vm_compute; reflexivity.
    - vm_compute. discriminate.
    - apply (scan_by (-2)). vm_compute. reflexivity.
    - apply (request_by 2 (-2)); vm_compute; reflexivity.
    - apply (request_by 2 (-2)); vm_compute; reflexivity. }
  split; [exact N2|]. split; [exact N2'|]. split; [now apply cell_eqb_true|]. split; [now apply cell_eqb_true|]. split; now apply reads_ok.
Qed.

(** A scan that is taken, and the same scan twenty cells further down, which is not. *)
Definition mp_o : point := [f0; f0].
Definition mp_e : point := [f32_lit 3 1; f32_lit 3 1].
Definition mp_o' : point := [f32_lit (-10) 1; f32_lit (-10) 1].
Definition mp_e' : point := [f32_lit (-7) 1; f32_lit (-7) 1].
Definition mp_leaves (h1 : grid_map f32) : bool :=
  match cast_ray F32A 1000 mp_o' mp_e' (bmin (gm_bounds h1)) (gm_resolution h1) (max_range ex_lidar) with Ret (rc, _) => negb (forallb (in_shape (nd_shape (gm_data h1))) rc) | _ => false end.
Definition mp_cloud : matrix := mkMatrix 2 1 mp_e.
Definition mp_cloud' : matrix := mkMatrix 2 1 mp_e'.
Lemma mp_never : forall h h1, storage_ok (gm_data h1) -> gm_expand_bounds h (pc_bounds mp_cloud') f0 = Ret h1 -> mp_leaves h1 = true ->
  forall fuel of oo h', is_order of -> is_order oo -> integrate_point_cloud fuel of oo ex_lidar h mp_o' mp_cloud' <> Ret h'.
Proof.
  intros h h1 S E L fuel of oo h' O1 O2 I. destruct (integrate_iff fuel of oo ex_lidar h h1 mp_o' mp_cloud' O1 O2 S E) as [[Q _] _].
  destruct (Q (ex_intro _ h' I) mp_e' (or_introl eq_refl)) as (rc & oe & C & IN & _). cbv beta in C. clear Q. unfold mp_leaves in L.
  set (K := fun n => cast_ray F32A n mp_o' mp_e' (bmin (gm_bounds h1)) (gm_resolution h1) (max_range ex_lidar)) in *. change (K fuel = Ret (rc, oe)) in C. change (cast_ray F32A 1000 mp_o' mp_e' (bmin (gm_bounds h1)) (gm_resolution h1) (max_range ex_lidar)) with (K 1000%nat) in L.
  assert (M : forall n n', (n <= n')%nat -> K n <> NoFuel -> K n' = K n) by (intros n n'; apply cast_fuel). clearbody K.
  assert (X : K 1000%nat = Ret (rc, oe)).
  { destruct (K 1000%nat) as [x| |] eqn:Y; try discriminate L. destruct (Nat.le_ge_cases fuel 1000) as [G|G].
    - rewrite (M fuel 1000%nat G) in Y by (rewrite C; discriminate). congruence.
    - rewrite (M 1000%nat fuel G) in C by (rewrite Y; discriminate). congruence. }
  rewrite X in L. apply negb_true_iff in L. assert (F : forallb (in_shape (nd_shape (gm_data h1))) rc = true); [|congruence].
  apply forallb_forall. intros c Hc. rewrite Forall_forall in IN. apply in_shape_iff. exact (IN c Hc).
Qed.
Lemma mp_refuted : exists fuel K (g g' : grid_map f32) o cloud o' cloud', map_range 2 half 4 /\ gm_new half (bounds_empty 2) 4 f0 = Ret g /\
  moved_scan (cells_of (real half) K) o cloud o' cloud' /\ request_ok 2 half (pc_bounds cloud) /\ request_ok 2 half (pc_bounds cloud') /\
  integrate_point_cloud fuel as_is as_is ex_lidar g o cloud = Ret g' /\ in_view (-2) (bmin (gm_bounds g')) o cloud /\
  forall fuel' of oo h', is_order of -> is_order oo -> integrate_point_cloud fuel' of oo ex_lidar g o' cloud' <> Ret h'.
Proof.
  exists 40%nat, [-20; -20].
  assert (P : match sh_start with Ret g => match gm_expand_bounds g (pc_bounds mp_cloud') f0 with Ret h1 =>
    match integrate_point_cloud 40 as_is as_is ex_lidar g mp_o mp_cloud with Ret g' => view_b (-2) (bmin (gm_bounds g')) mp_o mp_cloud && mp_leaves h1 | _ => false end | _ => false end | _ => false end = true) by (vm_compute; reflexivity).
  change (gm_new half (bounds_empty 2) 4 f0) with sh_start.
  assert (RE : forall g, sh_start = Ret g -> reachable 2 half 4 g) by (intros g E; exact (reach_new 2 half 4 f0 g E)).
  assert (RQ : request_ok 2 half (pc_bounds mp_cloud')) by (apply (request_by 2 (-2)); vm_compute; reflexivity).
  destruct sh_start as [g| |]; try discriminate P. specialize (RE g eq_refl). exists g.
  destruct (gm_expand_bounds g (pc_bounds mp_cloud') f0) as [h1| |] eqn:E1; try discriminate P.
  destruct (integrate_point_cloud 40 as_is as_is ex_lidar g mp_o mp_cloud) as [g'| |] eqn:I; try discriminate P. exists g', mp_o, mp_cloud, mp_o', mp_cloud'.
  apply andb_prop in P. destruct P as [V L]. split; [exact half_range|]. split; [reflexivity|]. split; [apply (scan_by (-2)); vm_compute; reflexivity|].
  split; [apply (request_by 2 (-2)); vm_compute; reflexivity|]. split; [exact RQ|]. split; [exact I|]. split; [now apply view_by|].
  apply (mp_never g h1); [|exact E1|exact L].
  assert (R2 : reachable 2 half 4 h1) by exact (reach_expand 2 half 4 g _ _ h1 RE RQ E1).
  destruct (wf_of_reachable 2 half 4 h1 half_range R2) as [cb W]. apply W.
Qed.

(** The same ray seen from far away. *)
Definition mr_o' : point := [f32_lit 41 8; f32_lit 1 4].
Definition mr_e' : point := [f32_lit 55 8; f32_lit 1 1].
Definition mr_b' : point := [f32_lit 39 8; f32_lit (-1) 4].
Definition mr_v : list R := [39 / 8; - (1 / 4)]%R.
Fixpoint by_b (q : Z) (K : cell) (p p' : point) : bool :=
  match K, p, p' with
  | [], [], [] => true
  | k :: K, x :: p, x' :: p' => counted q (fun m m' => m' =? m + k) x x' && by_b q K p p'
  | _, _, _ => false
  end.
Lemma by_ok : forall q K p p', by_b q K p p' = true -> moved_by (map (fun k => IZR k * bpow radix2 q)%R K) (map real p) (map real p').
Proof.
  intros q K p p'. unfold moved_by. rewrite !map_length. revert p p'. induction K as [|k K IH]; intros [|x p] [|x' p'] H; try discriminate H; [repeat split; cbn; lia|].
  cbn [by_b] in H. apply andb_prop in H. destruct H as [A H]. destruct (IH p p' H) as (L & L' & M). split; [cbn [length]; lia|]. split; [cbn [length]; lia|]. intros [|i] Hi; cbn [map nth length] in *.
  - unfold counted in A. destruct (steps q x) as [a|] eqn:E1; [|discriminate A]. destruct (steps q x') as [a'|] eqn:E2; [|discriminate A].
    apply steps_ok in E1, E2. destruct E1 as [_ ->], E2 as [_ ->]. apply Z.eqb_eq in A. rewrite A, plus_IZR. ring.
  - apply M. lia.
Qed.
Lemma mr_by : forall p p', by_b (-3) [39; -2] p p' = true -> moved_by mr_v (map real p) (map real p').
Proof.
  intros p p' H. apply by_ok in H. replace mr_v with (map (fun k => IZR k * bpow radix2 (-3))%R [39; -2]); [exact H|]. unfold mr_v. cbn [map]. change (bpow radix2 (-3)) with (/ 8)%R. f_equal. f_equal. lra.
Qed.
Lemma mr_example : even_units (-3) half /\ Forall (units (-3)) sh_b /\ Forall (units (-3)) mr_b' /\ Forall (units (-3)) sh_o /\ Forall (units (-3)) sh_e /\ Forall (units (-3)) mr_o' /\ Forall (units (-3)) mr_e' /\
  above (map real sh_b) (map real sh_o) /\ above (map real sh_b) (map real sh_e) /\
  moved_by mr_v (map real sh_o) (map real mr_o') /\ moved_by mr_v (map real sh_e) (map real mr_e') /\ moved_by mr_v (map real sh_b) (map real mr_b') /\
  cast_ray F32A 20 mr_o' mr_e' mr_b' half f0 = Ret ([[1; 1]; [2; 1]; [2; 2]; [3; 2]; [4; 2]], Some [4; 3]).
Proof.
  split. { destruct (steps_ok (-3) half 4) as [F E]; [vm_compute; reflexivity|]. split; [exact F|]. exists 2. split; [lia|exact E]. }
  do 6 (split; [apply all_units; vm_compute; reflexivity|]). do 2 (split; [apply (above_ok (-3)); vm_compute; reflexivity|]).
  do 3 (split; [apply mr_by; vm_compute; reflexivity|]). vm_compute. reflexivity.
Qed.
Lemma mr_exact : moved_by [1 / 3; -7]%R [1 / 4; 1 / 2]%R [7 / 12; -13 / 2]%R /\ moved_by [1 / 3; -7]%R [2; 5 / 4]%R [7 / 3; -23 / 4]%R /\ moved_by [1 / 3; -7]%R [0; 0]%R [1 / 3; -7]%R.
Proof. unfold moved_by. repeat split; intros [|[|i]] Hi; cbn [nth length] in *; try lia; lra. Qed.
Lemma mv_sizes : exists K g h, map_range 2 half 4 /\ moved_history 2 half 4 (-2) ex_lidar K g h /\ nd_shape (gm_data g) <> nd_shape (gm_data h).
Proof. destruct mv_history as (g & h & H & _ & _ & S & S' & _). exists mv_K, g, h. split; [exact half_range|]. split; [exact H|]. rewrite S, S'. discriminate. Qed.
