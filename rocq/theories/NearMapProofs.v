(** C95: what a scan of clear beams leaves in the map when the points are known up to small errors. *)
From Coq Require Import ZArith List Bool Reals Lra Lia.
From Flocq Require Import Core BinarySingleNaN.
From Verif Require Import Base F32 FloatFacts Arith Geom NdArray GridMap RayCaster NoiseModel Spec SpecMap SpecNoise SpecBack SpecMeet SpecNear MapProofs ExpandProofs NdProofs NoiseProofs MeetProofs MeetMapProofs MoveProofs TransformProofs NearProofs.
Open Scope Z_scope.

Lemma Forall2_left : forall (A B : Type) (P : A -> B -> Prop) l l' x, Forall2 P l l' -> In x l -> exists y, In y l' /\ P x y.
Proof. induction 1 as [|a b l l' H _ IH]; [intros []|]. intros [<-|I]; [exists b; split; [now left|exact H]|]. destruct (IH I) as (y & Hy & K). exists y. split; [now right|exact K]. Qed.
Lemma Forall2_right : forall (A B : Type) (P : A -> B -> Prop) l l' y, Forall2 P l l' -> In y l' -> exists x, In x l /\ P x y.
Proof. induction 1 as [|a b l l' H _ IH]; [intros []|]. intros [<-|I]; [exists a; split; [now left|exact H]|]. destruct (IH I) as (x & Hx & K). exists x. split; [now right|exact K]. Qed.

Lemma near_map : forall d r t fuel of oo m g g1 o cloud O pts, map_range d r t -> reachable d r t g -> is_order of -> is_order oo -> request_ok d r (pc_bounds cloud) -> length o = d ->
  gm_expand_bounds g (pc_bounds cloud) f0 = Ret g1 ->
  fltb f0 (max_range m) = true -> finite (max_range m) -> (real (max_range m) <= 1048576 * real r)%R -> (3072 <= fuel)%nat ->
  let B := map real (bmin (gm_bounds g1)) in let M := real (max_range m) in
  off_by_cells (/ 64) (real r) (map real o) O ->
  Forall2 (fun q p => length p = d /\ ray_short r o p (bmin (gm_bounds g1)) /\ off_by_cells (/ 64) (real r) (map real p) q /\ clear_segment M B (real r) O q) pts (pc_points cloud) ->
  let hit c := exists q, In q pts /\ c = nearest_cell B (real r) q /\ beam_arrives M B (real r) O q in
  let passed c := exists q, In q pts /\ beam_passes M B (real r) O q c in
  ((exists g', integrate_point_cloud fuel of oo m g o cloud = Ret g') <-> (forall c, hit c \/ passed c -> in_range (nd_shape (gm_data g1)) c)) /\
  forall g', integrate_point_cloud fuel of oo m g o cloud = Ret g' -> gm_bounds g' = gm_bounds g1 /\
    (forall c, hit c -> exists v, gm_get g1 c = Ret v /\ gm_get g' c = Ret (fmin (fadd v (hit_logodds m)) (max_logodds m))) /\
    (forall c, ~ hit c -> passed c -> exists v, gm_get g1 c = Ret v /\ gm_get g' c = Ret (fmax (fadd v (miss_logodds m)) (min_logodds m))) /\
    (forall c, cells_in_isize c -> ~ hit c -> ~ passed c -> gm_get g' c = gm_get g1 c).
Proof.
  intros d r t fuel of oo m g g1 o cloud O pts MR Rg H1 H2 Q Lo E1 Pm Fm Bm F B M Co H hit passed.
  assert (R1 : reachable d r t g1) by (eapply reach_expand; [exact Rg|exact Q|exact E1]).
  destruct (wf_of_reachable d r t g1 MR R1) as [cb W]. pose proof (wf_covers _ _ _ _ _ MR W) as C.
  assert (LB : length (bmin (gm_bounds g1)) = d). { pose proof (Forall2_length _ _ _ (cc_min _ _ _ _ _ C)) as L. destruct (cc_ordered _ _ _ _ _ C) as (L1 & _). unfold cell, point in *. congruence. }
  assert (K : Forall2 (fun q p => length p = d /\ clear_ray (max_range m) r (bmin (gm_bounds g1)) o p /\ nearest_cell B (real r) (map real p) = nearest_cell B (real r) q /\
    (forall x, beam_passes M B (real r) (map real o) (map real p) x <-> beam_passes M B (real r) O q x) /\
    (beam_arrives M B (real r) (map real o) (map real p) <-> beam_arrives M B (real r) O q)) pts (pc_points cloud)).
  { revert H. apply Forall2_imp. intros q p (Lp & HS & Cp & CS). split; [exact Lp|]. exact (near_clear d o p (bmin (gm_bounds g1)) r (max_range m) O q (proj1 MR) Lo Lp LB HS Co Cp CS). }
  clear H. pose proof (map_meets d r t fuel of oo m g g1 o cloud MR Rg H1 H2 Q Lo E1 Pm Fm Bm F) as T. cbv zeta in T. fold B M in T.
  assert (CL : forall p, In p (pc_points cloud) -> length p = d /\ clear_ray (max_range m) r (bmin (gm_bounds g1)) o p) by (intros p Hp; destruct (Forall2_right _ _ _ _ _ p K Hp) as (q & _ & Lp & CR & _); auto).
  specialize (T CL). clear CL.
  assert (EH : forall c, (exists p, In p (pc_points cloud) /\ c = nearest_cell B (real r) (map real p) /\ beam_arrives M B (real r) (map real o) (map real p)) <-> hit c).
  { intro c. split.
    - intros (p & Hp & Ec & A). destruct (Forall2_right _ _ _ _ _ p K Hp) as (q & Hq & _ & _ & N & _ & A'). exists q. split; [exact Hq|]. split; [rewrite <- N; exact Ec|]. now apply A'.
    - intros (q & Hq & Ec & A). destruct (Forall2_left _ _ _ _ _ q K Hq) as (p & Hp & _ & _ & N & _ & A'). exists p. split; [exact Hp|]. split; [rewrite N; exact Ec|]. now apply A'. }
  assert (EP : forall c, (exists p, In p (pc_points cloud) /\ beam_passes M B (real r) (map real o) (map real p) c) <-> passed c).
  { intro c. split.
    - intros (p & Hp & A). destruct (Forall2_right _ _ _ _ _ p K Hp) as (q & Hq & _ & _ & _ & P & _). exists q. split; [exact Hq|]. now apply P.
    - intros (q & Hq & A). destruct (Forall2_left _ _ _ _ _ q K Hq) as (p & Hp & _ & _ & _ & P & _). exists p. split; [exact Hp|]. now apply P. }
  destruct T as [T1 T2]. split.
  - rewrite T1. split; intros I c J; apply I; (destruct J as [J|J]; [left|right]); [apply EH in J|apply EP in J|apply EH|apply EP]; exact J.
  - intros g' E'. destruct (T2 g' E') as (U1 & U2 & U3 & U4). split; [exact U1|]. split; [|split].
    + intros c J. apply U2. now apply EH.
    + intros c N J. apply U3; [|now apply EP]. intro X. apply N. now apply EH.
    + intros c I N N'. apply U4; [exact I| |]; intro X; [apply N; now apply EH|apply N'; now apply EP].
Qed.

Lemma Forall2_map_left : forall (A B C : Type) (f : A -> C) (P : C -> B -> Prop) l l', Forall2 (fun x y => P (f x) y) l l' -> Forall2 P (map f l) l'.
Proof. induction 1; constructor; auto. Qed.
(** Points moved by a pose: the exact positions are those of exact arithmetic. *)
Lemma moved_near : forall r r1 r2 r3 r4 raw, (bpow radix2 (-100) <= real r)%R -> matrix_ok raw -> nrows raw = 3%nat -> Forall moderate (mdata raw) ->
  Forall (fun row => length row = 4%nat /\ Forall moderate row) [r1; r2; r3] ->
  (forall p, In p (pc_points raw) -> Forall (fun row => affine_size row p <= 16384 * real r)%R [r1; r2; r3]) ->
  Forall2 (fun q p => length p = 3%nat /\ off_by_cells (/ 64) (real r) (map real p) q)
    (map (fun p => [affine r1 p; affine r2 p; affine r3 p]) (pc_points raw)) (pc_points (pc_transform [r1; r2; r3; r4] raw)).
Proof.
  intros r r1 r2 r3 r4 raw Hr MO NR MD HR SZ. pose proof (transform_error r1 r2 r3 r4 raw MO NR MD HR) as T.
  apply Forall2_in in T. apply Forall2_map_left. revert T. apply Forall2_imp. intros p q (Hp & _ & v1 & v2 & v3 & -> & N1 & N2 & N3).
  specialize (SZ p Hp). apply Forall_cons_iff in SZ. destruct SZ as [S1 SZ]. apply Forall_cons_iff in SZ. destruct SZ as [S2 SZ]. apply Forall_cons_iff in SZ. destruct SZ as [S3 _].
  split; [reflexivity|]. assert (K : forall row v, near_affine row p v -> (affine_size row p <= 16384 * real r)%R -> (Rabs (real v - affine row p) <= / 64 * real r)%R).
  { intros row v [_ N] S. change (bpow radix2 (-24)) with (/ 16777216)%R in N.
    assert (B : (bpow radix2 (-147) <= bpow radix2 (-40) * bpow radix2 (-100))%R) by (rewrite <- bpow_plus; apply bpow_le; lia). change (bpow radix2 (-40)) with (/ 1099511627776)%R in B.
    assert (0 < bpow radix2 (-100))%R by apply bpow_gt_0. lra. }
  repeat apply Forall2_cons; try apply Forall2_nil; apply K; assumption.
Qed.

Lemma moved_map : forall r t fuel of oo m g g1 o r1 r2 r3 r4 raw, map_range 3 r t -> reachable 3 r t g -> is_order of -> is_order oo ->
  matrix_ok raw -> nrows raw = 3%nat -> Forall moderate (mdata raw) -> Forall (fun row => length row = 4%nat /\ Forall moderate row) [r1; r2; r3] ->
  (forall p, In p (pc_points raw) -> Forall (fun row => affine_size row p <= 16384 * real r)%R [r1; r2; r3]) ->
  let cloud := pc_transform [r1; r2; r3; r4] raw in let exact_place p := [affine r1 p; affine r2 p; affine r3 p] in
  request_ok 3 r (pc_bounds cloud) -> length o = 3%nat -> gm_expand_bounds g (pc_bounds cloud) f0 = Ret g1 ->
  fltb f0 (max_range m) = true -> finite (max_range m) -> (real (max_range m) <= 1048576 * real r)%R -> (3072 <= fuel)%nat ->
  let B := map real (bmin (gm_bounds g1)) in let O := map real o in let M := real (max_range m) in
  (forall p, In p (pc_points cloud) -> ray_short r o p (bmin (gm_bounds g1))) ->
  (forall p, In p (pc_points raw) -> clear_segment M B (real r) O (exact_place p)) ->
  let hit c := exists p, In p (pc_points raw) /\ c = nearest_cell B (real r) (exact_place p) /\ beam_arrives M B (real r) O (exact_place p) in
  let passed c := exists p, In p (pc_points raw) /\ beam_passes M B (real r) O (exact_place p) c in
  ((exists g', integrate_point_cloud fuel of oo m g o cloud = Ret g') <-> (forall c, hit c \/ passed c -> in_range (nd_shape (gm_data g1)) c)) /\
  forall g', integrate_point_cloud fuel of oo m g o cloud = Ret g' -> gm_bounds g' = gm_bounds g1 /\
    (forall c, hit c -> exists v, gm_get g1 c = Ret v /\ gm_get g' c = Ret (fmin (fadd v (hit_logodds m)) (max_logodds m))) /\
    (forall c, ~ hit c -> passed c -> exists v, gm_get g1 c = Ret v /\ gm_get g' c = Ret (fmax (fadd v (miss_logodds m)) (min_logodds m))) /\
    (forall c, cells_in_isize c -> ~ hit c -> ~ passed c -> gm_get g' c = gm_get g1 c).
Proof.
  intros r t fuel of oo m g g1 o r1 r2 r3 r4 raw MR Rg H1 H2 MO NR MD HR SZ cloud ex Q Lo E1 Pm Fm Bm F B O M SH CS hit passed.
  destruct MR as (D & RO & HT). pose proof RO as (_ & R30).
  assert (P0 : (0 < real r)%R) by (apply Rlt_le_trans with (2 := proj1 R30); apply bpow_gt_0).
  assert (Co : off_by_cells (/ 64) (real r) (map real o) O).
  { unfold O. clear - P0. induction o as [|x o IH]; constructor; [|exact IH]. rewrite Rminus_diag_eq, Rabs_R0 by reflexivity. lra. }
  pose proof (moved_near r r1 r2 r3 r4 raw (proj1 R30) MO NR MD HR SZ) as NM. fold cloud in NM. fold ex in NM.
  assert (K : Forall2 (fun q p => length p = 3%nat /\ ray_short r o p (bmin (gm_bounds g1)) /\ off_by_cells (/ 64) (real r) (map real p) q /\ clear_segment M B (real r) O q) (map ex (pc_points raw)) (pc_points cloud)).
  { apply Forall2_in in NM. revert NM. apply Forall2_imp. intros q p (Iq & Ip & Lp & C). split; [exact Lp|]. split; [exact (SH p Ip)|]. split; [exact C|].
    apply in_map_iff in Iq. destruct Iq as (p0 & <- & I0). exact (CS p0 I0). }
  pose proof (near_map 3 r t fuel of oo m g g1 o cloud O (map ex (pc_points raw)) (conj D (conj RO HT)) Rg H1 H2 Q Lo E1 Pm Fm Bm F Co K) as T. cbv zeta in T. fold B M in T.
  assert (EX : forall P : list R -> Prop, (exists q, In q (map ex (pc_points raw)) /\ P q) <-> (exists p, In p (pc_points raw) /\ P (ex p))).
  { intro P. split; [intros (q & I & H); apply in_map_iff in I; destruct I as (p & <- & I); exists p; auto|intros (p & I & H); exists (ex p); split; [now apply in_map|exact H]]. }
  assert (EH : forall c, (exists q, In q (map ex (pc_points raw)) /\ c = nearest_cell B (real r) q /\ beam_arrives M B (real r) O q) <-> hit c) by (intro c; exact (EX (fun q => c = nearest_cell B (real r) q /\ beam_arrives M B (real r) O q))).
  assert (EP : forall c, (exists q, In q (map ex (pc_points raw)) /\ beam_passes M B (real r) O q c) <-> passed c) by (intro c; exact (EX (fun q => beam_passes M B (real r) O q c))).
  destruct T as [T1 T2]. split.
  - rewrite T1. split; intros I c J; apply I; (destruct J as [J|J]; [left|right]); [apply EH in J|apply EP in J|apply EH|apply EP]; exact J.
  - intros g' E'. destruct (T2 g' E') as (U1 & U2 & U3 & U4). split; [exact U1|]. split; [|split].
    + intros c J. apply U2. now apply EH.
    + intros c N J. apply U3; [|now apply EP]. intro X. apply N. now apply EH.
    + intros c I N N'. apply U4; [exact I| |]; intro X; [apply N; now apply EH|apply N'; now apply EP].
Qed.
