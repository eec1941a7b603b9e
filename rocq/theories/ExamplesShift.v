(** Examples for moved corners. *)
From Coq Require Import ZArith List Bool Reals Lra Lia.
From Flocq Require Import Core BinarySingleNaN.
From Verif Require Import Base F32 FloatFacts Arith Geom NdArray GridMap RayCaster NoiseModel Spec SpecMap SpecNoise SpecShift NdProofs CastProofs GeomProofs GridProofs RayProofs ExpandProofs MapProofs NoiseProofs ReturnProofs Examples ExamplesMap ExamplesNoise.
Open Scope Z_scope.

(** How many units of 2^q a number is. *)
Definition steps (q : Z) (x : f32) : option Z :=
  match B2SF x with
  | SpecFloat.S754_zero _ => Some 0
  | SpecFloat.S754_finite s m e => if q <=? e then Some (cond_Zopp s (Z.pos m) * 2 ^ (e - q)) else if Z.pos m mod 2 ^ (q - e) =? 0 then Some (cond_Zopp s (Z.pos m / 2 ^ (q - e))) else None
  | _ => None
  end.
Lemma steps_ok : forall q x k, steps q x = Some k -> finite x /\ (real x = IZR k * bpow radix2 q)%R.
Proof.
  intros q x k H. unfold steps in H. unfold finite, real. rewrite <- is_finite_SF_B2SF, <- SF2R_B2SF. destruct (B2SF x) as [s| | |s m e]; try discriminate H.
  - injection H as <-. split; [reflexivity|]. cbn [SF2R]. ring.
  - split; [reflexivity|]. cbn [SF2R]. unfold F2R. cbn [Fnum Fexp]. destruct (Z.leb_spec q e) as [L|L].
    + injection H as <-. rewrite mult_IZR, (IZR_Zpower radix2) by lia. rewrite Rmult_assoc, <- bpow_plus. do 2 f_equal. ring.
    + destruct (Z.eqb_spec (Z.pos m mod 2 ^ (q - e)) 0) as [D|D]; [|discriminate H]. injection H as <-.
      assert (P : 0 < 2 ^ (q - e)) by (apply Z.pow_pos_nonneg; lia).
      assert (E : cond_Zopp s (Z.pos m) = cond_Zopp s (Z.pos m / 2 ^ (q - e)) * 2 ^ (q - e)).
      { pose proof (Z.div_mod (Z.pos m) (2 ^ (q - e)) ltac:(lia)) as Q. destruct s; cbn [cond_Zopp]; lia. }
      rewrite E, mult_IZR, (IZR_Zpower radix2) by lia. rewrite Rmult_assoc, <- bpow_plus. do 2 f_equal. ring.
Qed.
Definition units_b (q n : Z) (x : f32) : bool := match steps q x with Some k => Z.abs k <=? n | None => false end.
Lemma units_ok : forall q x, units_b q (2 ^ 21) x = true -> units q x.
Proof. intros q x H. unfold units_b in H. destruct (steps q x) as [k|] eqn:E; [|discriminate H]. apply steps_ok in E. destruct E as [F E]. split; [exact F|]. exists k. split; [now apply Z.leb_le|exact E]. Qed.
Lemma all_units : forall q p, forallb (units_b q (2 ^ 21)) p = true -> Forall (units q) p.
Proof. intros q p H. rewrite forallb_forall in H. apply Forall_forall. intros x Hx. apply units_ok. auto. Qed.
Lemma all_near : forall q p, forallb (units_b q (2 ^ 20)) p = true -> near_zero q p.
Proof.
  intros q p H. rewrite forallb_forall in H. apply Forall_forall. intros x Hx. specialize (H x Hx). unfold units_b in H. destruct (steps q x) as [k|] eqn:E; [|discriminate H].
  apply steps_ok in E. destruct E as [_ E]. rewrite E, Rabs_mult, (Rabs_pos_eq (bpow radix2 q)) by apply bpow_ge_0. apply Rmult_le_compat_r; [apply bpow_ge_0|]. rewrite <- abs_IZR. apply IZR_le. now apply Z.leb_le.
Qed.
Definition counted (q : Z) (f : Z -> Z -> bool) (x y : f32) : bool := match steps q x, steps q y with Some k, Some l => f k l | _, _ => false end.
Fixpoint both {X Y} (f : X -> Y -> bool) (p : list X) (q : list Y) : bool := match p, q with [], [] => true | x :: p, y :: q => f x y && both f p q | _, _ => false end.
Lemma above_ok : forall q b p, both (counted q Z.leb) b p = true -> above (map real b) (map real p).
Proof.
  intros q b p. unfold above. rewrite !map_length. revert p. induction b as [|x b IH]; intros [|y p] H; try discriminate H; [split; [reflexivity|cbn; lia]|].
  cbn [both] in H. apply andb_prop in H. destruct H as [A H]. destruct (IH p H) as [L K]. split; [cbn [length]; lia|]. intros [|i] Hi; cbn [map nth length] in *.
  - unfold counted in A. destruct (steps q x) as [k|] eqn:E1; [|discriminate A]. destruct (steps q y) as [l|] eqn:E2; [|discriminate A]. apply steps_ok in E1, E2. destruct E1 as [_ ->], E2 as [_ ->].
    apply Rmult_le_compat_r; [apply bpow_ge_0|]. apply IZR_le. now apply Z.leb_le.
  - apply K. lia.
Qed.
Fixpoint moved_b (q : Z) (r : f32) (w : cell) (b b' : point) : bool :=
  match w, b, b' with
  | [], [], [] => true
  | k :: w, x :: b, x' :: b' => match steps q r, steps q x, steps q x' with Some n, Some m, Some m' => m' =? m - k * n | _, _, _ => false end && moved_b q r w b b'
  | _, _, _ => false
  end.
Lemma moved_ok : forall q r w b b', moved_b q r w b b' = true -> moved_down (real r) w (map real b) (map real b').
Proof.
  intros q r w b b'. unfold moved_down. rewrite !map_length. revert b b'. induction w as [|k w IH]; intros [|x b] [|x' b'] H; try discriminate H; [repeat split; cbn; lia|].
  cbn [moved_b] in H. apply andb_prop in H. destruct H as [A H]. destruct (IH b b' H) as (L & L' & K). split; [cbn [length]; lia|]. split; [cbn [length]; lia|]. intros [|i] Hi; cbn [map nth length] in *.
  - destruct (steps q r) as [n|] eqn:E; [|discriminate A]. destruct (steps q x) as [m|] eqn:E1; [|discriminate A]. destruct (steps q x') as [m'|] eqn:E2; [|discriminate A].
    apply steps_ok in E, E1, E2. destruct E as [_ ->], E1 as [_ ->], E2 as [_ ->]. apply Z.eqb_eq in A. rewrite A, minus_IZR, mult_IZR. ring.
  - apply K. lia.
Qed.
Definition request_b (q : Z) (r : f32) (b : bounds) : bool :=
  both fleb (bmin b) (bmax b) && forallb (fun x => counted q (fun n k => Z.abs k <=? 2 ^ 18 * n) r x) (bmin b ++ bmax b).
Lemma both_forall2 : forall {X Y} (f : X -> Y -> bool) p q, both f p q = true -> Forall2 (fun x y => f x y = true) p q.
Proof. intros X Y f. induction p as [|x p IH]; intros [|y q] H; try discriminate H; constructor; cbn [both] in H; apply andb_prop in H; destruct H; auto. Qed.
Lemma request_by : forall d q r b, length (bmin b) = d -> request_b q r b = true -> request_ok d r b.
Proof.
  intros d q r b L H. apply andb_prop in H. destruct H as [A B]. apply both_forall2 in A. pose proof (Forall2_length _ _ _ A) as L'. rewrite forallb_forall in B.
  assert (W : forall x, In x (bmin b ++ bmax b) -> within_cells (2 ^ 18) r x).
  { intros x Hx. specialize (B x Hx). unfold counted in B. destruct (steps q r) as [n|] eqn:E1; [|discriminate B]. destruct (steps q x) as [k|] eqn:E2; [|discriminate B].
    apply steps_ok in E1, E2. destruct E1 as [_ E1], E2 as [F E2]. split; [exact F|]. rewrite E1, E2, Rabs_mult, (Rabs_pos_eq (bpow radix2 q)) by apply bpow_ge_0. rewrite <- Rmult_assoc, <- mult_IZR.
    apply Rmult_le_compat_r; [apply bpow_ge_0|]. rewrite <- abs_IZR. apply IZR_le. now apply Z.leb_le. }
  split; [|split]; [|apply Forall_forall; intros x Hx; apply W, in_or_app; now left|apply Forall_forall; intros x Hx; apply W, in_or_app; now right].
  split; [exact L|]. split; [unfold point in *; lia|exact A].
Qed.

Definition half : f32 := f32_lit 1 2.
Lemma half_even : even_units (-2) half.
Proof. destruct (steps_ok (-2) half 2) as [F E]; [vm_compute; reflexivity|]. split; [exact F|]. exists 1. split; [lia|exact E]. Qed.
Lemma half_range : map_range 2 half 4.
Proof. split; [now left|]. split; [|lia]. apply res_by; [vm_compute; reflexivity|]. unfold half. closed_float (f32_lit 1 2). rewrite V. lra. Qed.

(** The same ray seen from two corners. *)
Definition sh_o : point := [f32_lit 1 4; f32_lit 1 2].
Definition sh_e : point := [f32_lit 2 1; f32_lit 5 4].
Definition sh_b : point := [f0; f0].
Definition sh_b' : point := [f32_lit (-1) 1; f32_lit (-3) 2].
Lemma sh_sight : forall p, p = sh_o \/ p = sh_e -> in_sight (-2) sh_b sh_b' p.
Proof. intros p [-> | ->]; (split; [apply all_units; vm_compute; reflexivity|]); split; apply (above_ok (-2)); vm_compute; reflexivity. Qed.
Lemma sh_ray : even_units (-2) half /\ Forall (units (-2)) sh_b /\ Forall (units (-2)) sh_b' /\ in_sight (-2) sh_b sh_b' sh_o /\ in_sight (-2) sh_b sh_b' sh_e /\
  moved_down (real half) [2; 3] (map real sh_b) (map real sh_b') /\
  cast_ray F32A 20 sh_o sh_e sh_b half f0 = Ret ([[1; 1]; [2; 1]; [2; 2]; [3; 2]; [4; 2]], Some [4; 3]) /\
  cast_ray F32A 20 sh_o sh_e sh_b' half f0 = Ret ([[3; 4]; [4; 4]; [4; 5]; [5; 5]; [6; 5]], Some [6; 6]).
Proof.
  split; [exact half_even|]. do 2 (split; [apply all_units; vm_compute; reflexivity|]). split; [apply sh_sight; now left|]. split; [apply sh_sight; now right|].
  split; [apply (moved_ok (-2)); vm_compute; reflexivity|]. split; vm_compute; reflexivity.
Qed.

(** A scan into a new map, and into the same map grown downwards before. *)
Definition sh_cloud : matrix := mkMatrix 2 2 [f32_lit 2 1; f32_lit 5 4; f32_lit 1 2; f32_lit 3 2].
Definition sh_box : bounds := mkBounds [f32_lit (-3) 1; f32_lit (-1) 1] [f1; f1].
Definition sh_start : outcome (grid_map f32) := gm_new half (bounds_empty 2) 4 f0.
Definition corner_b (q : Z) (g : grid_map f32) (p : point) : bool := both (counted q Z.leb) (bmin (gm_bounds g)) p.
Definition reads_b (g : grid_map f32) (c : cell) (v : f32) : bool := match gm_get g c with Ret x => match B2SF x, B2SF v with SpecFloat.S754_finite s m e, SpecFloat.S754_finite s' m' e' => Bool.eqb s s' && Pos.eqb m m' && (e =? e') | _, _ => false end | _ => false end.
Lemma reads_ok : forall g c v, reads_b g c v = true -> gm_get g c = Ret v.
Proof.
  unfold reads_b. intros g c v H. clear -H. destruct (gm_get g c) as [x| |]; try discriminate H. f_equal. apply B2SF_inj. destruct (B2SF x); try discriminate H. destruct (B2SF v); try discriminate H.
  apply andb_prop in H. destruct H as [H E]. apply andb_prop in H. destruct H as [S M]. apply Bool.eqb_prop in S. apply Pos.eqb_eq in M. apply Z.eqb_eq in E. now subst.
Qed.
Definition sh_check (g h h1 g' h' : grid_map f32) : bool :=
  forallb (units_b (-2) (2 ^ 20)) (bmin (gm_bounds g')) && forallb (units_b (-2) (2 ^ 20)) (bmin (gm_bounds h1)) &&
  forallb (corner_b (-2) g') (sh_o :: pc_points sh_cloud) && cell_eqb (nd_shape (gm_data g')) [8; 4] && cell_eqb (nd_shape (gm_data h')) [16; 8] &&
  (reads_b g' [4; 3] (hit_logodds ex_lidar) && reads_b h' [12; 7] (hit_logodds ex_lidar) && reads_b g' [2; 1] (miss_logodds ex_lidar) && reads_b h' [10; 5] (miss_logodds ex_lidar)).
Lemma sh_scan : exists g h h1 g' h' : grid_map f32, reachable 2 half 4 g /\ request_ok 2 half sh_box /\ request_ok 2 half (pc_bounds sh_cloud) /\
  gm_expand_bounds g sh_box f0 = Ret h /\ gm_expand_bounds h (pc_bounds sh_cloud) f0 = Ret h1 /\
  (forall p, p = sh_o \/ In p (pc_points sh_cloud) -> Forall (units (-2)) p /\ above (map real (bmin (gm_bounds g'))) (map real p)) /\
  near_zero (-2) (bmin (gm_bounds g')) /\ near_zero (-2) (bmin (gm_bounds h1)) /\
  integrate_point_cloud 40 as_is as_is ex_lidar g sh_o sh_cloud = Ret g' /\ integrate_point_cloud 40 as_is as_is ex_lidar h sh_o sh_cloud = Ret h' /\
  nd_shape (gm_data g') = [8; 4] /\ nd_shape (gm_data h') = [16; 8] /\
  gm_get g' [4; 3] = Ret (hit_logodds ex_lidar) /\ gm_get h' [12; 7] = Ret (hit_logodds ex_lidar) /\ gm_get g' [2; 1] = Ret (miss_logodds ex_lidar) /\ gm_get h' [10; 5] = Ret (miss_logodds ex_lidar).
Proof.
  assert (P : match sh_start with Ret g => match gm_expand_bounds g sh_box f0 with Ret h => match gm_expand_bounds h (pc_bounds sh_cloud) f0 with Ret h1 =>
    match integrate_point_cloud 40 as_is as_is ex_lidar g sh_o sh_cloud with Ret g' => match integrate_point_cloud 40 as_is as_is ex_lidar h sh_o sh_cloud with Ret h' =>
    sh_check g h h1 g' h' | _ => false end | _ => false end | _ => false end | _ => false end | _ => false end = true) by (vm_compute; reflexivity).
  assert (RE : forall g, sh_start = Ret g -> reachable 2 half 4 g) by (intros g E; exact (reach_new 2 half 4 f0 g E)).
  destruct sh_start as [g| |]; try discriminate P. specialize (RE g eq_refl). exists g.
  destruct (gm_expand_bounds g sh_box f0) as [h| |]; try discriminate P. exists h. destruct (gm_expand_bounds h (pc_bounds sh_cloud) f0) as [h1| |]; try discriminate P. exists h1.
  destruct (integrate_point_cloud 40 as_is as_is ex_lidar g sh_o sh_cloud) as [g'| |]; try discriminate P. exists g'.
  destruct (integrate_point_cloud 40 as_is as_is ex_lidar h sh_o sh_cloud) as [h'| |]; try discriminate P. exists h'. unfold sh_check in P.
  apply andb_prop in P. destruct P as [P R]. apply andb_prop in P. destruct P as [P S2]. apply andb_prop in P. destruct P as [P S1]. apply andb_prop in P. destruct P as [P AB]. apply andb_prop in P. destruct P as [N1 N2].
  apply andb_prop in R. destruct R as [R R4]. apply andb_prop in R. destruct R as [R R3]. apply andb_prop in R. destruct R as [R1 R2].
  split; [exact RE|]. do 2 (split; [apply (request_by 2 (-2)); vm_compute; reflexivity|]). do 2 (split; [reflexivity|]).
  split.
  { rewrite forallb_forall in AB. intros p Hp. split; [|apply (above_ok (-2)), AB; destruct Hp as [-> |Hp]; [now left|now right]].
    assert (U : forallb (forallb (units_b (-2) (2 ^ 21))) (sh_o :: pc_points sh_cloud) = true) by (vm_compute; reflexivity). rewrite forallb_forall in U. apply all_units, U. destruct Hp as [-> |Hp]; [now left|now right]. }
  do 2 (split; [now apply all_near|]). do 2 (split; [reflexivity|]). do 2 (split; [now apply cell_eqb_true|]).
  repeat split; now apply reads_ok.
Qed.

(** With cells of 0.1 it is otherwise. *)
Definition st_o : point := [f0; f0].
Definition st_e : point := [f32_lit 5 100; f32_lit 25 100].
Definition st_cloud : matrix := mkMatrix 2 1 st_e.
Definition st_box : bounds := mkBounds [f32_lit (-4) 10; f32_lit (-4) 10] [f0; f0].
Definition st_start : outcome (grid_map f32) := gm_new tenth (bounds_empty 2) 4 f0.
Lemma st_box_ok : request_ok 2 tenth st_box.
Proof.
  split; [|split].
  - repeat split; try reflexivity. repeat constructor; vm_compute; reflexivity.
  - repeat apply Forall_cons; [| |apply Forall_nil]; within (f32_lit (-4) 10).
  - repeat apply Forall_cons; [| |apply Forall_nil]; within f0.
Qed.
Lemma st_cloud_ok : request_ok 2 tenth (pc_bounds st_cloud).
Proof.
  apply cloud_request; [exact res_tenth|reflexivity|reflexivity|]. change (pc_points st_cloud) with [st_e]. intros p [<- |[]]; repeat apply Forall_cons; try apply Forall_nil.
  - within (f32_lit 5 100).
  - within (f32_lit 25 100).
Qed.
Definition st_leaves (h1 : grid_map f32) : bool :=
  match cast_ray F32A 1000 st_o st_e (bmin (gm_bounds h1)) (gm_resolution h1) (max_range ex_lidar) with Ret (rc, _) => negb (forallb (in_shape (nd_shape (gm_data h1))) rc) | _ => false end.
Lemma st_never : forall h h1, storage_ok (gm_data h1) -> gm_expand_bounds h (pc_bounds st_cloud) f0 = Ret h1 -> st_leaves h1 = true ->
  forall fuel of oo h', is_order of -> is_order oo -> integrate_point_cloud fuel of oo ex_lidar h st_o st_cloud <> Ret h'.
Proof.
  intros h h1 S E L fuel of oo h' O1 O2 I. destruct (integrate_iff fuel of oo ex_lidar h h1 st_o st_cloud O1 O2 S E) as [[Q _] _].
  destruct (Q (ex_intro _ h' I) st_e (or_introl eq_refl)) as (rc & oe & C & IN & _). cbv beta in C. clear Q. unfold st_leaves in L.
  set (K := fun n => cast_ray F32A n st_o st_e (bmin (gm_bounds h1)) (gm_resolution h1) (max_range ex_lidar)) in *. change (K fuel = Ret (rc, oe)) in C. change (cast_ray F32A 1000 st_o st_e (bmin (gm_bounds h1)) (gm_resolution h1) (max_range ex_lidar)) with (K 1000%nat) in L.
  assert (M : forall n n', (n <= n')%nat -> K n <> NoFuel -> K n' = K n) by (intros n n'; apply cast_fuel). clearbody K.
  assert (X : K 1000%nat = Ret (rc, oe)).
  { destruct (K 1000%nat) as [x| |] eqn:Y; try discriminate L. destruct (Nat.le_ge_cases fuel 1000) as [G|G].
    - rewrite (M fuel 1000%nat G) in Y by (rewrite C; discriminate). congruence.
    - rewrite (M 1000%nat fuel G) in C by (rewrite Y; discriminate). congruence. }
  rewrite X in L. apply negb_true_iff in L. assert (F : forallb (in_shape (nd_shape (gm_data h1))) rc = true); [|congruence].
  apply forallb_forall. intros c Hc. rewrite Forall_forall in IN. apply in_shape_iff. exact (IN c Hc).
Qed.
Definition st_check (h1 g' : grid_map f32) : bool :=
  moved_b (-27) tenth [4; 4] (bmin (gm_bounds g')) (bmin (gm_bounds h1)) && both (counted (-30) Z.leb) (bmin (gm_bounds g')) st_o && both (counted (-30) Z.leb) (bmin (gm_bounds g')) st_e && st_leaves h1.
Lemma st_refuted : exists fuel (g h h1 g' : grid_map f32) b cloud o, map_range 2 tenth 4 /\ reachable 2 tenth 4 g /\ request_ok 2 tenth b /\ request_ok 2 tenth (pc_bounds cloud) /\
  gm_expand_bounds g b f0 = Ret h /\ gm_expand_bounds h (pc_bounds cloud) f0 = Ret h1 /\
  (forall p, p = o \/ In p (pc_points cloud) -> above (map real (bmin (gm_bounds g'))) (map real p)) /\
  moved_down (real tenth) [4; 4] (map real (bmin (gm_bounds g'))) (map real (bmin (gm_bounds h1))) /\
  integrate_point_cloud fuel as_is as_is ex_lidar g o cloud = Ret g' /\
  forall fuel' of oo h', is_order of -> is_order oo -> integrate_point_cloud fuel' of oo ex_lidar h o cloud <> Ret h'.
Proof.
  exists 40%nat.
  assert (P : match st_start with Ret g => match gm_expand_bounds g st_box f0 with Ret h => match gm_expand_bounds h (pc_bounds st_cloud) f0 with Ret h1 =>
    match integrate_point_cloud 40 as_is as_is ex_lidar g st_o st_cloud with Ret g' => st_check h1 g' | _ => false end | _ => false end | _ => false end | _ => false end = true) by (vm_compute; reflexivity).
  assert (RE : forall g, st_start = Ret g -> reachable 2 tenth 4 g) by (intros g E; exact (reach_new 2 tenth 4 f0 g E)).
  destruct st_start as [g| |]; try discriminate P. specialize (RE g eq_refl). exists g.
  destruct (gm_expand_bounds g st_box f0) as [h| |] eqn:E; try discriminate P. exists h. destruct (gm_expand_bounds h (pc_bounds st_cloud) f0) as [h1| |] eqn:E1; try discriminate P. exists h1.
  destruct (integrate_point_cloud 40 as_is as_is ex_lidar g st_o st_cloud) as [g'| |] eqn:I; try discriminate P. exists g', st_box, st_cloud, st_o. unfold st_check in P.
  apply andb_prop in P. destruct P as [P L]. apply andb_prop in P. destruct P as [P A2]. apply andb_prop in P. destruct P as [P A1].
  split; [exact ex_map_range|]. split; [exact RE|]. split; [exact st_box_ok|]. split; [exact st_cloud_ok|]. split; [exact E|]. split; [exact E1|].
  split. { intros p [-> |[<- |[]]]; apply (above_ok (-30)); assumption. }
  split; [now apply (moved_ok (-27))|]. split; [exact I|]. apply (st_never h h1); [|exact E1|exact L].
  assert (R2 : reachable 2 tenth 4 h1) by exact (reach_expand 2 tenth 4 h _ _ h1 (reach_expand 2 tenth 4 g _ _ h RE st_box_ok E) st_cloud_ok E1).
  destruct (wf_of_reachable 2 tenth 4 h1 ex_map_range R2) as [cb W]. apply W.
Qed.

(** A ray in exact arithmetic. *)
Lemma sh_exact : above [0; 0]%R [1 / 4; 1 / 2]%R /\ above [0; 0]%R [2; 5 / 4]%R /\ above [-1; - (3 / 2)]%R [1 / 4; 1 / 2]%R /\ above [-1; - (3 / 2)]%R [2; 5 / 4]%R /\
  moved_down (1 / 2) [2; 3] [0; 0]%R [-1; - (3 / 2)]%R /\ small (2 ^ 60) [2; 3] /\ nearest_cell [0; 0]%R (1 / 2) [1 / 4; 1 / 2]%R = [1; 1].
Proof.
  assert (A : forall a b c d : R, (a <= c)%R -> (b <= d)%R -> above [a; b] [c; d]).
  { intros a b c d H K. split; [reflexivity|]. intros [|[|i]] Hi; cbn in *; try assumption. lia. }
  do 4 (split; [apply A; lra|]). split.
  { split; [reflexivity|]. split; [reflexivity|]. intros [|[|i]] Hi; cbn in *; try lra. lia. }
  split; [repeat constructor; lia|]. unfold nearest_cell. cbn [map2].
  replace ((1 / 4 - 0) / (1 / 2))%R with (1 / 2)%R by lra. replace ((1 / 2 - 0) / (1 / 2))%R with (IZR 1) by lra.
  assert (H : ZnearestA (IZR 1) = 1) by (apply Znearest_imp; rewrite Rminus_diag_eq by reflexivity; rewrite Rabs_R0; lra). unfold ZnearestA in *. rewrite H. f_equal.
  unfold Znearest. assert (F : Zfloor (1 / 2) = 0) by (apply Zfloor_imp; cbn; lra). assert (C : Zceil (1 / 2) = 1) by (apply Zceil_imp; cbn; lra). rewrite F, C.
  rewrite Rcompare_Eq by lra. reflexivity.
Qed.
