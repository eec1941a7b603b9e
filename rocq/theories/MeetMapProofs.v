(** C94: what a scan of clear beams leaves in the map. *)
From Coq Require Import ZArith List Bool Reals Lra Lia.
From Flocq Require Import Core BinarySingleNaN.
From Verif Require Import Base F32 FloatFacts Arith Geom NdArray GridMap RayCaster NoiseModel Spec SpecMap SpecNoise SpecBack SpecMeet NdProofs GridProofs ExpandProofs MapProofs CastProofs RaysProofs NoiseProofs ReturnProofs SameProofs LimitSameProofs MeetProofs.
Open Scope Z_scope.

Lemma map_meets : forall d r t fuel of oo m g g1 o cloud, map_range d r t -> reachable d r t g -> is_order of -> is_order oo -> request_ok d r (pc_bounds cloud) -> length o = d ->
  gm_expand_bounds g (pc_bounds cloud) f0 = Ret g1 ->
  fltb f0 (max_range m) = true -> finite (max_range m) -> (real (max_range m) <= 1048576 * real r)%R -> (3072 <= fuel)%nat ->
  (forall p, In p (pc_points cloud) -> length p = d /\ clear_ray (max_range m) r (bmin (gm_bounds g1)) o p) ->
  let B := map real (bmin (gm_bounds g1)) in let O := map real o in let M := real (max_range m) in
  let hit c := exists p, In p (pc_points cloud) /\ c = nearest_cell B (real r) (map real p) /\ beam_arrives M B (real r) O (map real p) in
  let passed c := exists p, In p (pc_points cloud) /\ beam_passes M B (real r) O (map real p) c in
  ((exists g', integrate_point_cloud fuel of oo m g o cloud = Ret g') <-> (forall c, hit c \/ passed c -> in_range (nd_shape (gm_data g1)) c)) /\
  forall g', integrate_point_cloud fuel of oo m g o cloud = Ret g' -> gm_bounds g' = gm_bounds g1 /\
    (forall c, hit c -> exists v, gm_get g1 c = Ret v /\ gm_get g' c = Ret (fmin (fadd v (hit_logodds m)) (max_logodds m))) /\
    (forall c, ~ hit c -> passed c -> exists v, gm_get g1 c = Ret v /\ gm_get g' c = Ret (fmax (fadd v (miss_logodds m)) (min_logodds m))) /\
    (forall c, cells_in_isize c -> ~ hit c -> ~ passed c -> gm_get g' c = gm_get g1 c).
Proof.
  intros d r t fuel of oo m g g1 o cloud MR Rg H1 H2 Q Lo E1 Pm Fm Bm F H B O M hit passed.
  assert (R1 : reachable d r t g1) by (eapply reach_expand; [exact Rg|exact Q|exact E1]).
  destruct (wf_of_reachable d r t g1 MR R1) as [cb W]. pose proof (wf_covers _ _ _ _ _ MR W) as C.
  assert (LB : length (bmin (gm_bounds g1)) = d). { pose proof (Forall2_length _ _ _ (cc_min _ _ _ _ _ C)) as L. destruct (cc_ordered _ _ _ _ _ C) as (L1 & _). unfold cell, point in *. congruence. }
  pose proof (cc_resolution _ _ _ _ _ C) as RE.
  destruct (wf_of_reachable d r t g MR Rg) as [cb0 W0]. pose proof (cc_storage _ _ _ _ _ (wf_covers _ _ _ _ _ MR W0)) as SG. pose proof (cc_storage _ _ _ _ _ C) as SG1.
  destruct (scan_meets d fuel o cloud (gm_bounds g1) r (max_range m) (proj1 MR) Lo LB Pm Fm Bm F H) as (free & occ & CR & HO & HF). fold B O M in HO, HF.
  assert (HO' : forall c, In c occ <-> hit c) by exact HO. assert (HF' : forall c, In c free <-> passed c /\ ~ hit c) by (intro c; rewrite HF, HO'; reflexivity). clear HO HF.
  split.
  - pose proof (proj1 (integrate_iff fuel of oo m g g1 o cloud H1 H2 SG1 E1)) as I. cbv zeta in I. rewrite RE in I. rewrite I. clear I. split.
    + intros K c [(p & Hp & Ec & A)|(p & Hp & P)]; destruct (K p Hp) as (rc & oe & CA & IR & IO); destruct (H p Hp) as [Lp CL];
        destruct (beam d o p _ r (proj1 MR) Lo Lp LB fuel _ CL Pm Fm Bm F) as (rc' & oe' & CA' & P1 & P2); assert (X : rc' = rc /\ oe' = oe) by (split; congruence); destruct X as [-> ->].
      * apply IO. apply P2. auto.
      * rewrite Forall_forall in IR. apply IR, P1, P.
    + intros K p Hp. destruct (H p Hp) as [Lp CL]. destruct (beam d o p _ r (proj1 MR) Lo Lp LB fuel _ CL Pm Fm Bm F) as (rc & oe & CA & P1 & P2).
      exists rc, oe. split; [exact CA|]. split.
      * apply Forall_forall. intros x Hx. apply K. right. exists p. split; [exact Hp|]. now apply P1.
      * intros c Hc. apply K. left. exists p. split; [exact Hp|]. now apply P2.
  - intros g' I. destruct (integrate_spec fuel of oo m g o cloud g' H1 H2 SG I) as (g2 & fr & oc & E2 & C2 & _ & _ & _ & EB & _ & _ & _ & VO & VF & VN & _).
    assert (g2 = g1) by congruence. subst g2. rewrite RE, CR in C2. assert (X : fr = free /\ oc = occ) by (split; congruence). destruct X as [-> ->].
    split; [exact EB|]. split; [intros c Hc; apply VO, HO', Hc|]. split; [intros c N P; apply VF, HF'; auto|].
    intros c Ic N P. apply VN; [exact Ic|rewrite HO'; exact N|rewrite HF'; tauto].
Qed.
