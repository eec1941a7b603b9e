(** Examples for exchanged axes. *)
From Coq Require Import ZArith List Bool Lia Permutation Reals Lra.
From Flocq Require Import Core BinarySingleNaN.
From Verif Require Import Base F32 FloatFacts Arith Geom NdArray GridMap RayCaster NoiseModel Spec SpecMap SpecNoise SpecRay SpecScale SpecSwap RayProofs GridProofs SwapProofs SwapMapProofs NoiseProofs Examples ExamplesMap ExamplesNoise ExamplesScale.
Open Scope Z_scope.

(** Checks by computation. *)
Definition apart_b (n k l : nat) (o e b : point) (r : f32) : bool :=
  let t := first_crossings o e b r (cell_from_point F32A o b r) in let s := spacings o e r in
  forallb (fun i => forallb (fun j =>
    let x := crossing (nth k t finf) (nth k s finf) i in let y := crossing (nth l t finf) (nth l s finf) j in fltb x y || fltb y x) (seq 0 (n - i))) (seq 0 n).
Lemma apart_ok : forall n k l o e b r, apart_b n k l o e b r = true -> 
  let t := first_crossings o e b r (cell_from_point F32A o b r) in let s := spacings o e r in
  forall i j, (i + j < n)%nat -> let x := crossing (nth k t finf) (nth k s finf) i in let y := crossing (nth l t finf) (nth l s finf) j in fltb x y = true \/ fltb y x = true.
Proof.
  intros n k l o e b r H t s i j Hij x y. unfold apart_b in H. rewrite forallb_forall in H. specialize (H i ltac:(apply in_seq; lia)). rewrite forallb_forall in H. specialize (H j ltac:(apply in_seq; lia)). now apply orb_prop in H.
Qed.
Lemma untied_ok : forall n o e b r, apart_b n 0 1 o e b r = true -> untied n o e b r.
Proof. intros n o e b r H i j Hij x y. destruct (apart_ok _ _ _ _ _ _ _ H i j Hij); auto. Qed.

(** A ray in two dimensions and one in three. *)
Definition sx_o : point := [f32_lit 1 10; f32_lit 0 10; f32_lit (-2) 10].
Definition sx_e : point := [f32_lit 5 10; f32_lit (-1) 10; f32_lit 1 10].
Definition sx_b : point := [f32_lit (-4) 10; f32_lit (-4) 10; f32_lit (-4) 10].
Lemma sx_rays : untied 40 su_o [f32_lit 7 10; f32_lit 2 10] [f0; f0] tenth /\ untied 40 sx_o sx_e sx_b tenth /\
  cast_ray F32A 40 su_o [f32_lit 7 10; f32_lit 2 10] [f0; f0] tenth f0 = Ret ([[1; 1]; [2; 1]; [3; 1]; [4; 1]; [4; 2]; [5; 2]; [6; 2]], Some [7; 2]) /\
  cast_ray F32A 40 sx_o sx_e sx_b tenth f0 = Ret ([[5; 4; 2]; [6; 4; 2]; [6; 4; 3]; [7; 4; 3]; [7; 4; 4]; [7; 3; 4]; [8; 3; 4]; [8; 3; 5]], Some [9; 3; 5]) /\
  cast_ray F32A 40 (swapped sx_o) (swapped sx_e) (swapped sx_b) tenth f0 = Ret ([[4; 5; 2]; [4; 6; 2]; [4; 6; 3]; [4; 7; 3]; [4; 7; 4]; [3; 7; 4]; [3; 8; 4]; [3; 8; 5]], Some [3; 9; 5]).
Proof.
  split; [apply untied_ok; vm_compute; reflexivity|]. split; [apply untied_ok; vm_compute; reflexivity|]. repeat split; vm_compute; reflexivity.
Qed.

(** Two scans. *)
Definition sx_cloud2 : matrix := mkMatrix 2 1 [f32_lit 11 10; f32_lit (-8) 10].
Definition sx_scans : list (point * matrix) := [(su_o, su_cloud1); (su_o, sx_cloud2)].
Definition sx_cloud (c : matrix) : matrix := mkMatrix (nrows c) (ncols c) (concat (map swapped (pc_points c))).
Definition sx_scans' : list (point * matrix) := map (fun s => (swapped (fst s), sx_cloud (snd s))) sx_scans.
Lemma sx_swapped : Forall2 swapped_scan sx_scans sx_scans'.
Proof. repeat constructor; reflexivity. Qed.
Lemma sx_in : Forall (fun s => scan_in 2 s /\ request_ok 2 tenth (pc_bounds (snd s))) sx_scans.
Proof.
  assert (C : forall c, forallb (fun p => Nat.eqb (length p) 2) (pc_points c) = true -> forall p, In p (pc_points c) -> length p = 2%nat) by (intros c H p Hp; rewrite forallb_forall in H; now apply Nat.eqb_eq, H).
  constructor; [|constructor; [|constructor]]; (split; [split; [reflexivity|]; split; [reflexivity|]; apply C; vm_compute; reflexivity|]); cbn [snd].
  - apply cloud_request; [exact res_tenth|reflexivity|reflexivity|]. change (pc_points su_cloud1) with [[f32_lit 7 10; f32_lit 2 10]; [f32_lit (-4) 10; f32_lit 3 10]]. intros p [<- |[<- |[]]]; repeat apply Forall_cons; try apply Forall_nil.
    + within (f32_lit 7 10).
    + within (f32_lit 2 10).
    + within (f32_lit (-4) 10).
    + within (f32_lit 3 10).
  - apply cloud_request; [exact res_tenth|reflexivity|reflexivity|]. change (pc_points sx_cloud2) with [[f32_lit 11 10; f32_lit (-8) 10]]. intros p [<- |[]]; repeat apply Forall_cons; try apply Forall_nil.
    + within (f32_lit 11 10).
    + within (f32_lit (-8) 10).
Qed.
Definition apart_cloud (g1 : grid_map f32) (o : point) (c : matrix) : bool := forallb (fun p => apart_b 40 0 1 o p (bmin (gm_bounds g1)) tenth) (pc_points c).
Lemma sx_apart1 : forall g g1, su_start = Ret g -> gm_expand_bounds g (pc_bounds su_cloud1) f0 = Ret g1 -> apart_cloud g1 su_o su_cloud1 = true.
Proof.
  assert (H : match su_start with Ret g => match gm_expand_bounds g (pc_bounds su_cloud1) f0 with Ret g1 => apart_cloud g1 su_o su_cloud1 | _ => true end | _ => true end = true) by (vm_compute; reflexivity).
  intros g g1 A B. rewrite A, B in H. exact H.
Qed.
Lemma sx_apart2 : forall g g0 g1, su_start = Ret g -> built 40 same_order same_order ex_lidar g [(su_o, su_cloud1)] = Ret g0 -> gm_expand_bounds g0 (pc_bounds sx_cloud2) f0 = Ret g1 -> apart_cloud g1 su_o sx_cloud2 = true.
Proof.
  assert (H : match su_start with Ret g => match built 40 same_order same_order ex_lidar g [(su_o, su_cloud1)] with Ret g0 => match gm_expand_bounds g0 (pc_bounds sx_cloud2) f0 with Ret g1 => apart_cloud g1 su_o sx_cloud2 | _ => true end | _ => true end | _ => true end = true) by (vm_compute; reflexivity).
  intros g g0 g1 A B C. rewrite A, B, C in H. exact H.
Qed.
Lemma sx_untied : forall g, gm_new tenth (bounds_empty 2) 4 f0 = Ret g ->
  forall before o c after g0 g1 p, sx_scans = before ++ (o, c) :: after -> built 40 same_order same_order ex_lidar g before = Ret g0 -> gm_expand_bounds g0 (pc_bounds c) f0 = Ret g1 -> In p (pc_points c) ->
    cell_from_point F32A o (bmin (gm_bounds g1)) tenth <> cell_from_point F32A p (bmin (gm_bounds g1)) tenth -> untied 40 o p (bmin (gm_bounds g1)) tenth.
Proof.
  intros g G before o c after g0 g1 p E B X Hp _. apply untied_ok. assert (K : apart_cloud g1 o c = true).
  { destruct (two_splits _ _ _ _ _ E) as [[Eb Es]|[Eb Es]]; pose proof (f_equal fst Es) as Eo; apply (f_equal snd) in Es; cbn [fst snd] in Es, Eo; rewrite Es in X |- *; rewrite Eo; rewrite Eb in B.
    - cbn [built] in B. injection B as B. rewrite <- B in X. exact (sx_apart1 g g1 G X).
    - exact (sx_apart2 g g0 g1 G B X). }
  unfold apart_cloud in K. rewrite forallb_forall in K. now apply K.
Qed.
Lemma sx_result : exists g g2 g2', gm_new tenth (bounds_empty 2) 4 f0 = Ret g /\
  built 40 same_order same_order ex_lidar g sx_scans = Ret g2 /\ built 40 same_order same_order ex_lidar g sx_scans' = Ret g2' /\
  occupied ex_lidar g2 [11; 10] = Ret true /\ occupied ex_lidar g2' [10; 11] = Ret true /\ occupied ex_lidar g2' [9; 5] = Ret false /\ nd_shape (gm_data g2') = [12; 16].
Proof.
  assert (H : match su_start with Ret g => match built 40 same_order same_order ex_lidar g sx_scans, built 40 same_order same_order ex_lidar g sx_scans' with Ret g2, Ret g2' => match occupied ex_lidar g2 [11; 10], occupied ex_lidar g2' [10; 11], occupied ex_lidar g2' [9; 5] with Ret true, Ret true, Ret false => cell_eqb (nd_shape (gm_data g2')) [12; 16] | _, _, _ => false end | _, _ => false end | _ => false end = true) by (vm_compute; reflexivity).
  change (gm_new tenth (bounds_empty 2) 4 f0) with su_start. destruct su_start as [g| |]; try discriminate H.
  destruct (built 40 same_order same_order ex_lidar g sx_scans) as [g2| |] eqn:B; try discriminate H. destruct (built 40 same_order same_order ex_lidar g sx_scans') as [g2'| |] eqn:B'; try discriminate H.
  destruct (occupied ex_lidar g2 [11; 10]) as [[|]| |] eqn:O1; try discriminate H. destruct (occupied ex_lidar g2' [10; 11]) as [[|]| |] eqn:O2; try discriminate H. destruct (occupied ex_lidar g2' [9; 5]) as [[|]| |] eqn:O3; try discriminate H.
  exists g, g2, g2'. split; [reflexivity|]. split; [exact B|]. split; [exact B'|]. split; [exact O1|]. split; [exact O2|]. split; [exact O3|]. now apply cell_eqb_eq.
Qed.

(** A diagonal ray: of two borders at the same place that of the second axis is crossed first, exchanged or not. *)
Lemma sx_ties : exists fuel (o e b : point) r m rc oe rc' oe' c, length o = 2%nat /\ length e = 2%nat /\ length b = 2%nat /\ Forall finite (o ++ e ++ b ++ [m]) /\ res_ok r /\
  cast_ray F32A fuel o e b r m = Ret (rc, oe) /\ cast_ray F32A fuel (swapped o) (swapped e) (swapped b) r m = Ret (rc', oe') /\ In c rc /\ ~ In (swapped c) rc'.
Proof.
  exists 40%nat, [f0; f0], [f32_lit 3 1; f32_lit 3 1], [f0; f0], f1, f0.
  exists [[0; 0]; [0; 1]; [1; 1]; [1; 2]; [2; 2]; [2; 3]], (Some [3; 3]), [[0; 0]; [0; 1]; [1; 1]; [1; 2]; [2; 2]; [2; 3]], (Some [3; 3]), [0; 1].
  do 3 (split; [reflexivity|]). split.
  { apply Forall_forall. assert (F : forallb (fun x : f32 => is_finite x) ([f0; f0] ++ [f32_lit 3 1; f32_lit 3 1] ++ [f0; f0] ++ [f0]) = true) by (vm_compute; reflexivity). rewrite forallb_forall in F. exact F. }
  split; [apply res_by; [reflexivity|]; closed_float f1; rewrite V; lra|]. split; [vm_compute; reflexivity|]. split; [vm_compute; reflexivity|].
  split; [right; now left|]. cbn [swapped]. intros [H|[H|[H|[H|[H|[H|[]]]]]]]; discriminate H.
Qed.

(** The third axis: the length of the ray is added up from the left. *)
Definition tx_ray : outcome (list cell * option cell) := cast_ray F32A 40 [f0; f0; f0] [f32_lit 9 10; f32_lit 14 10; f32_lit 13 10] [f0; f0; f0] tenth f0.
Definition tx_ray' : outcome (list cell * option cell) := cast_ray F32A 40 [f0; f0; f0] [f32_lit 13 10; f32_lit 14 10; f32_lit 9 10] [f0; f0; f0] tenth f0.
Lemma tx_hits : exists rc oe, tx_ray = Ret (rc, oe) /\ In [4; 7; 7] rc.
Proof.
  assert (P : match tx_ray with Ret (rc, _) => existsb (cell_eqb [4; 7; 7]) rc | _ => false end = true) by (vm_compute; reflexivity).
  destruct tx_ray as [[rc oe]| |]; try discriminate P. exists rc, oe. split; [reflexivity|].
  apply existsb_exists in P. destruct P as (x & Hx & Ex). apply cell_eqb_eq in Ex. now subst.
Qed.
Lemma tx_misses : exists rc oe, tx_ray' = Ret (rc, oe) /\ ~ In [7; 7; 4] rc.
Proof.
  assert (P : match tx_ray' with Ret (rc, _) => negb (existsb (cell_eqb [7; 7; 4]) rc) | _ => false end = true) by (vm_compute; reflexivity).
  destruct tx_ray' as [[rc oe]| |]; try discriminate P. exists rc, oe. split; [reflexivity|].
  intro H. apply negb_true_iff in P. assert (X : existsb (cell_eqb [7; 7; 4]) rc = true) by (apply existsb_exists; exists [7; 7; 4]; split; [exact H|reflexivity]). congruence.
Qed.
Lemma sx_third : exists fuel (x y z : f32) (b : point) r m rc oe rc' oe' c, let e := [x; y; z] in let e' := [z; y; x] in Forall finite ([x; y; z; m] ++ b) /\ b = [f0; f0; f0] /\ res_ok r /\
  (forall q k l i j, q = e \/ q = e' -> (k < l < 3)%nat -> (i + j < fuel)%nat ->
    let t := first_crossings b q b r (cell_from_point F32A b b r) in let s := spacings b q r in
    let u := crossing (nth k t finf) (nth k s finf) i in let v := crossing (nth l t finf) (nth l s finf) j in fltb u v = true \/ fltb v u = true) /\
  cast_ray F32A fuel b e b r m = Ret (rc, oe) /\ cast_ray F32A fuel b e' b r m = Ret (rc', oe') /\ In c rc /\ ~ In [nth 2 c 0; nth 1 c 0; nth 0 c 0] rc'.
Proof.
  exists 40%nat, (f32_lit 9 10), (f32_lit 14 10), (f32_lit 13 10), [f0; f0; f0], tenth, f0.
  destruct tx_hits as (rc & oe & E & I1). destruct tx_misses as (rc' & oe' & E' & I2).
  exists rc, oe, rc', oe', [4; 7; 7]. cbv zeta. split.
  { apply Forall_forall. assert (F : forallb (fun x : f32 => is_finite x) ([f32_lit 9 10; f32_lit 14 10; f32_lit 13 10; f0] ++ [f0; f0; f0]) = true) by (vm_compute; reflexivity). rewrite forallb_forall in F. exact F. }
  split; [reflexivity|]. split; [exact res_tenth|]. split.
  { assert (A : forallb (fun q => apart_b 40 0 1 [f0; f0; f0] q [f0; f0; f0] tenth && (apart_b 40 0 2 [f0; f0; f0] q [f0; f0; f0] tenth && apart_b 40 1 2 [f0; f0; f0] q [f0; f0; f0] tenth))
      [[f32_lit 9 10; f32_lit 14 10; f32_lit 13 10]; [f32_lit 13 10; f32_lit 14 10; f32_lit 9 10]] = true) by (vm_compute; reflexivity).
    rewrite forallb_forall in A. intros q k l i j Hq Hkl Hij. specialize (A q ltac:(cbn [In]; destruct Hq as [->| ->]; auto)). apply andb_prop in A. destruct A as [A1 A]. apply andb_prop in A. destruct A as [A2 A3].
    destruct k as [|[|k]]; destruct l as [|[|[|l]]]; try lia; eapply apart_ok; eassumption. }
  split; [exact E|]. split; [exact E'|]. split; [exact I1|exact I2].
Qed.
