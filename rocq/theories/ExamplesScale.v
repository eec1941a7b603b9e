(** Examples for other units. *)
From Coq Require Import ZArith List Bool Reals Lra Lia.
From Flocq Require Import Core BinarySingleNaN.
From Verif Require Import Base F32 FloatFacts Arith Geom NdArray GridMap RayCaster NoiseModel Spec SpecScale Examples ExamplesMap ExamplesNoise ExamplesMirror.
Open Scope Z_scope.

(** Checks by computation. *)
Definition between_b (lo hi : Z) (m : positive) (e : Z) : bool := (2 ^ (Z.max 0 (lo - e)) <=? Z.pos m) && (Z.pos m <=? 2 ^ (hi - e)) && (lo - e <=? 100) && (0 <=? hi - e).
Lemma between_ok : forall lo hi m e, between_b lo hi m e = true -> (bpow radix2 lo <= F2R (Float radix2 (Z.pos m) e) <= bpow radix2 hi)%R.
Proof.
  intros lo hi m e H. unfold between_b in H. apply andb_prop in H. destruct H as [H H4]. apply andb_prop in H. destruct H as [H H3]. apply andb_prop in H. destruct H as [H1 H2].
  apply Z.leb_le in H1, H2, H3, H4. unfold F2R. cbn [Fnum Fexp]. replace lo with ((lo - e) + e) by ring. replace hi with ((hi - e) + e) by ring. rewrite !bpow_plus. pose proof (bpow_gt_0 radix2 e) as P.
  split; apply Rmult_le_compat_r; try lra.
  - apply Rle_trans with (bpow radix2 (Z.max 0 (lo - e))); [apply bpow_le; lia|]. rewrite <- (IZR_Zpower radix2) by lia. now apply IZR_le.
  - rewrite <- (IZR_Zpower radix2) by lia. now apply IZR_le.
Qed.
Definition usual_b (x : f32) : bool := match B2SF x with SpecFloat.S754_zero _ => true | SpecFloat.S754_finite _ m e => between_b (-36) 20 m e | _ => false end.
Definition size_b (x : f32) : bool := match B2SF x with SpecFloat.S754_finite false m e => between_b (-20) 20 m e | _ => false end.
Definition times_b (k : Z) (x y : f32) : bool :=
  match B2SF x, B2SF y with
  | SpecFloat.S754_zero _, SpecFloat.S754_zero _ => true
  | SpecFloat.S754_finite s m e, SpecFloat.S754_finite s' m' e' => Bool.eqb s s' && (Pos.eqb m m' && (e' =? e + k))
  | _, _ => false
  end.
Lemma abs_signed : forall s m e, Rabs (F2R (Float radix2 (cond_Zopp s (Z.pos m)) e)) = F2R (Float radix2 (Z.pos m) e).
Proof. intros s m e. rewrite <- F2R_Zabs. now rewrite abs_cond_Zopp. Qed.
Lemma usual_ok : forall x, usual_b x = true -> usual x.
Proof.
  intros x H. unfold usual_b in H. split; [unfold finite; rewrite <- is_finite_SF_B2SF; now destruct (B2SF x)|]. unfold real. rewrite <- SF2R_B2SF. destruct (B2SF x) as [s| | |s m e]; try discriminate H; [now left|]. right. cbn [SF2R].
  rewrite abs_signed. now apply between_ok.
Qed.
Lemma size_ok : forall x, size_b x = true -> usual_size x.
Proof.
  intros x H. unfold size_b in H. split; [unfold finite; rewrite <- is_finite_SF_B2SF; now destruct (B2SF x) as [| | |[|]]|]. unfold real. rewrite <- SF2R_B2SF. destruct (B2SF x) as [s| | |[|] m e]; try discriminate H. cbn [SF2R cond_Zopp]. now apply between_ok.
Qed.
Lemma times_ok : forall k x y, times_b k x y = true -> (real y = real x * bpow radix2 k)%R.
Proof.
  intros k x y H. unfold times_b in H. unfold real. rewrite <- !SF2R_B2SF. destruct (B2SF x) as [s| | |s m e], (B2SF y) as [s'| | |s' m' e']; try discriminate H; [cbn [SF2R]; now rewrite Rmult_0_l|].
  apply andb_prop in H. destruct H as [A H]. apply andb_prop in H. destruct H as [B C]. apply Bool.eqb_prop in A. apply Pos.eqb_eq in B. apply Z.eqb_eq in C. subst. cbn [SF2R]. unfold F2R. cbn [Fnum Fexp]. rewrite bpow_plus. ring.
Qed.
Definition rescaled_b (k : Z) (x y : f32) : bool := usual_b x && usual_b y && times_b k x y.
Lemma rescaled_ok : forall k x y, rescaled_b k x y = true -> rescaled k x y.
Proof. intros k x y H. apply andb_prop in H. destruct H as [H C]. apply andb_prop in H. destruct H as [A B]. split; [now apply usual_ok|]. split; [now apply usual_ok|now apply times_ok]. Qed.
Definition size_rescaled_b (k : Z) (x y : f32) : bool := size_b x && size_b y && times_b k x y.
Lemma size_rescaled_ok : forall k x y, size_rescaled_b k x y = true -> rescaled_size k x y.
Proof. intros k x y H. apply andb_prop in H. destruct H as [H C]. apply andb_prop in H. destruct H as [A B]. split; [now apply size_ok|]. split; [now apply size_ok|now apply times_ok]. Qed.
Fixpoint all2_b {A} (f : A -> A -> bool) (p q : list A) : bool := match p, q with [], [] => true | x :: p, y :: q => f x y && all2_b f p q | _, _ => false end.
Lemma all2_ok : forall {A} f (R : A -> A -> Prop), (forall x y, f x y = true -> R x y) -> forall p q, all2_b f p q = true -> Forall2 R p q.
Proof. intros A f R H. induction p as [|x p IH]; intros [|y q] E; try discriminate E; [constructor|]. apply andb_prop in E. destruct E as [E1 E2]. constructor; auto. Qed.
Definition usual_in_b (k : Z) (x : f32) : bool := usual_b x && match B2SF x with SpecFloat.S754_zero _ => true | SpecFloat.S754_finite _ m e => between_b (-36) 20 m (e + k) | _ => false end.
Lemma usual_in_ok : forall k x, usual_in_b k x = true -> usual_in k x.
Proof.
  intros k x H. apply andb_prop in H. destruct H as [A B]. split; [now apply usual_ok|]. unfold real. rewrite <- SF2R_B2SF. destruct (B2SF x) as [s| | |s m e]; try discriminate B; cbn [SF2R]; [left; apply Rmult_0_l|]. right.
  rewrite Rabs_mult, abs_signed, (Rabs_pos_eq (bpow radix2 k)) by apply bpow_ge_0. apply between_ok in B. unfold F2R in *. cbn [Fnum Fexp] in *. rewrite bpow_plus, <- Rmult_assoc in B. exact B.
Qed.
Definition box_usual_in_b (k : Z) (b : bounds) : bool := forallb (usual_in_b k) (bmin b) && forallb (usual_in_b k) (bmax b).
Lemma box_usual_in_ok : forall k b, box_usual_in_b k b = true -> box_usual_in k b.
Proof. intros k b H. apply andb_prop in H. destruct H as [A B]. rewrite forallb_forall in A, B. split; apply Forall_forall; intros x Hx; apply usual_in_ok; auto. Qed.

(** Two scans with cells of 10 cm, in metres and in a unit of 1/4 m. *)
Definition quarter (x : f32) : f32 := fmul x (f32_of_Z 4).
Definition su_o : point := [f32_lit 1 10; f32_lit 1 10].
Definition su_cloud1 : matrix := mkMatrix 2 2 [f32_lit 7 10; f32_lit 2 10; f32_lit (-4) 10; f32_lit 3 10].
Definition su_cloud2 : matrix := mkMatrix 2 1 [f32_lit 11 10; f32_lit (-9) 10].
Definition in_quarters (c : matrix) : matrix := mkMatrix (nrows c) (ncols c) (map quarter (mdata c)).
Definition su_scans : list (point * matrix) := [(su_o, su_cloud1); (su_o, su_cloud2)].
Definition su_scans' : list (point * matrix) := [(map quarter su_o, in_quarters su_cloud1); (map quarter su_o, in_quarters su_cloud2)].
Definition su_r' : f32 := quarter tenth.
Definition su_lidar' : lidar := mkLidar (hit_logodds ex_lidar) (miss_logodds ex_lidar) (min_logodds ex_lidar) (max_logodds ex_lidar) (occupied_threshold_logodds ex_lidar) (quarter (max_range ex_lidar)).
Definition same_order : iteration_order := fun l => l.
Lemma su_size : rescaled_size 2 tenth su_r'.
Proof. apply size_rescaled_ok. vm_compute. reflexivity. Qed.
Lemma su_model : rescaled_lidar 2 ex_lidar su_lidar'.
Proof. do 5 (split; [reflexivity|]). apply rescaled_ok. vm_compute. reflexivity. Qed.
Lemma su_rescaled : Forall2 (rescaled_scan 2) su_scans su_scans'.
Proof.
  assert (P : forall p q, all2_b (rescaled_b 2) p q = true -> Forall2 (rescaled 2) p q) by (apply all2_ok, rescaled_ok).
  assert (C : forall c c', Nat.eqb (nrows c') (nrows c) && all2_b (all2_b (rescaled_b 2)) (pc_points c) (pc_points c') = true -> rescaled_cloud 2 c c').
  { intros c c' H. apply andb_prop in H. destruct H as [H1 H2]. split; [now apply Nat.eqb_eq|]. now apply (all2_ok _ _ P). }
  assert (P0 : Forall2 (rescaled 2) su_o (map quarter su_o)) by (apply P; vm_compute; reflexivity).
  assert (P1 : rescaled_cloud 2 su_cloud1 (in_quarters su_cloud1)) by (apply C; vm_compute; reflexivity).
  assert (P2 : rescaled_cloud 2 su_cloud2 (in_quarters su_cloud2)) by (apply C; vm_compute; reflexivity).
  constructor; [split; [exact P0|exact P1]|constructor; [split; [exact P0|exact P2]|constructor]].
Qed.
Lemma su_in : Forall (scan_in 2) su_scans.
Proof.
  assert (C : forall c, forallb (fun p => Nat.eqb (length p) 2) (pc_points c) = true -> forall p, In p (pc_points c) -> length p = 2%nat) by (intros c H p Hp; rewrite forallb_forall in H; now apply Nat.eqb_eq, H).
  constructor; [|constructor; [|constructor]]; (split; [reflexivity|]); (split; [reflexivity|]); apply C; vm_compute; reflexivity.
Qed.
Definition su_start : outcome (grid_map f32) := gm_new tenth (bounds_empty 2) 4 f0.
Lemma two_splits : forall {A} (s1 s2 s : A) before after, [s1; s2] = before ++ s :: after -> (before = [] /\ s = s1) \/ (before = [s1] /\ s = s2).
Proof.
  intros A s1 s2 s [|x [|y before]] after E; cbn [app] in E.
  - left. now injection E.
  - right. injection E as -> -> _. now split.
  - apply (f_equal (@length _)) in E. cbn [length] in E. rewrite app_length in E. cbn [length] in E. lia.
Qed.
(** The maps made room for by each scan. *)
Lemma su_room1 : forall g g1, su_start = Ret g -> gm_expand_bounds g (pc_bounds su_cloud1) f0 = Ret g1 -> box_usual_in_b 2 (gm_bounds g1) = true.
Proof.
  assert (H : match su_start with Ret g => match gm_expand_bounds g (pc_bounds su_cloud1) f0 with Ret g1 => box_usual_in_b 2 (gm_bounds g1) | _ => true end | _ => true end = true) by (vm_compute; reflexivity).
  intros g g1 A B. rewrite A, B in H. exact H.
Qed.
Lemma su_room2 : forall g g0 g1, su_start = Ret g -> built 99 same_order same_order ex_lidar g [(su_o, su_cloud1)] = Ret g0 -> gm_expand_bounds g0 (pc_bounds su_cloud2) f0 = Ret g1 -> box_usual_in_b 2 (gm_bounds g1) = true.
Proof.
  assert (H : match su_start with Ret g => match built 99 same_order same_order ex_lidar g [(su_o, su_cloud1)] with Ret g0 => match gm_expand_bounds g0 (pc_bounds su_cloud2) f0 with Ret g1 => box_usual_in_b 2 (gm_bounds g1) | _ => true end | _ => true end | _ => true end = true) by (vm_compute; reflexivity).
  intros g g0 g1 A B C. rewrite A, B, C in H. exact H.
Qed.
Lemma su_fits : forall g, gm_new tenth (bounds_empty 2) 4 f0 = Ret g ->
  forall before o c after g0 g1, su_scans = before ++ (o, c) :: after -> built 99 same_order same_order ex_lidar g before = Ret g0 -> gm_expand_bounds g0 (pc_bounds c) f0 = Ret g1 -> box_usual_in 2 (gm_bounds g1).
Proof.
  intros g G before o c after g0 g1 E B X. apply box_usual_in_ok. destruct (two_splits _ _ _ _ _ E) as [[Eb Es]|[Eb Es]]; apply (f_equal snd) in Es; cbn [snd] in Es; rewrite Es in X; rewrite Eb in B.
  - cbn [built] in B. injection B as B. rewrite <- B in X. exact (su_room1 g g1 G X).
  - exact (su_room2 g g0 g1 G B X).
Qed.
(** What comes out is a map with occupied and free cells. *)
Lemma su_result : exists g g2, gm_new tenth (bounds_empty 2) 4 f0 = Ret g /\ length (bmin (gm_bounds g)) = 2%nat /\ length (bmax (gm_bounds g)) = 2%nat /\
  built 99 same_order same_order ex_lidar g su_scans = Ret g2 /\ occupied ex_lidar g2 [11; 14] = Ret true /\ occupied ex_lidar g2 [5; 13] = Ret false /\
  exists v, gm_get g2 [5; 13] = Ret v /\ fltb v f0 = true.
Proof.
  assert (H : match su_start with Ret g => match built 99 same_order same_order ex_lidar g su_scans with Ret g2 => match occupied ex_lidar g2 [11; 14], occupied ex_lidar g2 [5; 13], gm_get g2 [5; 13] with Ret true, Ret false, Ret v => fltb v f0 | _, _, _ => false end | _ => false end | _ => false end = true).
  { vm_compute. reflexivity. }
  assert (L : match su_start with Ret g => Nat.eqb (length (bmin (gm_bounds g))) 2 && Nat.eqb (length (bmax (gm_bounds g))) 2 | _ => false end = true) by (vm_compute; reflexivity).
  change (gm_new tenth (bounds_empty 2) 4 f0) with su_start. destruct su_start as [g| |]; try discriminate H. apply andb_prop in L. destruct L as [L1 L2]. apply Nat.eqb_eq in L1, L2.
  destruct (built 99 same_order same_order ex_lidar g su_scans) as [g2| |] eqn:B; try discriminate H. destruct (occupied ex_lidar g2 [11; 14]) as [[|]| |] eqn:O1; try discriminate H. destruct (occupied ex_lidar g2 [5; 13]) as [[|]| |] eqn:O2; try discriminate H.
  destruct (gm_get g2 [5; 13]) as [v| |] eqn:V; try discriminate H. exists g, g2. split; [reflexivity|]. split; [exact L1|]. split; [exact L2|]. split; [exact B|]. split; [exact O1|]. split; [exact O2|]. exists v. split; [exact V|exact H].
Qed.

(** The range matters: a ray so short that the square of its length is zero. *)
Lemma tiny_unit : exists k (o o' e e' b b' : point) r r' m m' rc rc' oe oe', length o = 2%nat /\ length e = 2%nat /\ length b = 2%nat /\
  Forall finite (o ++ o' ++ e ++ e' ++ b ++ b' ++ [m; m']) /\ res_ok r /\ res_ok r' /\
  Forall2 (fun x y => real y = (real x * bpow radix2 k)%R) (o ++ e ++ b ++ [r; m]) (o' ++ e' ++ b' ++ [r'; m']) /\
  cast_ray F32A 9 o e b r m = Ret (rc, oe) /\ cast_ray F32A 9 o' e' b' r' m' = Ret (rc', oe') /\ In [0; -1] rc /\ ~ In [0; -1] rc'.
Proof.
  exists 76, [f0; f0], [f0; f0], [tiny; f0], [f1; f0], [f0; f0], [f0; f0], tiny, f1, (fdiv f1 (f32_of_Z (2 ^ 100))), (fdiv f1 (f32_of_Z (2 ^ 24))), [[0; 0]; [0; -1]; [0; -2]], [[0; 0]], None, (Some [1; 0]).
  do 3 (split; [reflexivity|]).
  assert (F : forallb (fun x : f32 => is_finite x) [f0; f0; f0; f0; tiny; f0; f1; f0; f0; f0; f0; f0; fdiv f1 (f32_of_Z (2 ^ 100)); fdiv f1 (f32_of_Z (2 ^ 24))] = true) by (vm_compute; reflexivity).
  split; [apply Forall_forall; rewrite forallb_forall in F; exact F|]. split; [exact tiny_ok|]. split.
  { apply res_by; [reflexivity|]. closed_float f1. rewrite V. lra. }
  split; [apply (all2_ok (times_b 76)); [apply times_ok|vm_compute; reflexivity]|]. split; [vm_compute; reflexivity|]. split; [vm_compute; reflexivity|].
  split; [right; now left|]. intros [H|[]]; discriminate H.
Qed.
(** And the factor: three times as large a point and grid. *)
Definition odd_b : f32 := fadd fhalf (fdiv f1 (f32_of_Z (2 ^ 23))).
Lemma thrice : exists p p' b b' r r', usual p /\ usual p' /\ usual b /\ usual b' /\ usual_size r /\ usual_size r' /\
  (real p' = real p * 3 /\ real b' = real b * 3 /\ real r' = real r * 3)%R /\ cell_from_point F32A [p] [b] r = [3] /\ cell_from_point F32A [p'] [b'] r' = [2].
Proof.
  exists (f32_of_Z 3), (f32_of_Z 9), odd_b, (fmul odd_b (f32_of_Z 3)), f1, (f32_of_Z 3).
  do 4 (split; [apply usual_ok; vm_compute; reflexivity|]). do 2 (split; [apply size_ok; vm_compute; reflexivity|]).
  split; [|split; vm_compute; reflexivity]. unfold real. closed_float (f32_of_Z 3). closed_float (f32_of_Z 9). closed_float odd_b. closed_float (fmul odd_b (f32_of_Z 3)). closed_float f1. rewrite V, V0, V1, V2, V3. lra.
Qed.
(** A ray, and a scan. *)
Definition su_e : point := [f32_lit 7 10; f32_lit 2 10].
Definition su_b : point := [f32_lit (-4) 10; f0].
Lemma su_ray : Forall2 (rescaled 2) su_o (map quarter su_o) /\ Forall2 (rescaled 2) su_e (map quarter su_e) /\ Forall2 (rescaled 2) su_b (map quarter su_b) /\
  rescaled 2 (max_range ex_lidar) (max_range su_lidar') /\
  cast_ray F32A 99 su_o su_e su_b tenth (max_range ex_lidar) = Ret ([[5; 1]; [6; 1]; [7; 1]; [8; 1]; [8; 2]; [9; 2]; [10; 2]], Some [11; 2]) /\
  rescaled_cloud 2 su_cloud1 (in_quarters su_cloud1) /\
  exists free, cast_rays 99 su_o su_cloud1 (mkBounds su_b su_b) tenth (max_range ex_lidar) = Ret (free, [[11; 2]; [0; 3]]).
Proof.
  assert (P : forall p q, all2_b (rescaled_b 2) p q = true -> Forall2 (rescaled 2) p q) by (apply all2_ok, rescaled_ok).
  split; [apply P; vm_compute; reflexivity|]. split; [apply P; vm_compute; reflexivity|]. split; [apply P; vm_compute; reflexivity|]. split; [apply su_model|]. split; [vm_compute; reflexivity|].
  split; [|eexists; vm_compute; reflexivity]. split; [reflexivity|]. apply (all2_ok _ _ P). vm_compute. reflexivity.
Qed.
