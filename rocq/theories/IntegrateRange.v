(** Integrating scans whose rays stay in range, and limited rays. *)
From Coq Require Import ZArith List Bool Reals Lra Lia Psatz Permutation.
From Flocq Require Import Core BinarySingleNaN.
From Verif Require Import Base F32 FloatFacts RoundError Arith Geom NdArray GridMap RayCaster NoiseModel Spec SpecMap SpecNoise MathProofs ConverterProofs GeomProofs BoundsProofs CloudProofs NdProofs GridProofs ExpandProofs MapProofs RayProofs CastProofs RaysProofs NoiseProofs RayRange RayReach.
Open Scope R_scope.

(** ** The number of steps *)
Lemma manhattan_bound : forall n (a b : cell), length a = length b ->
  (forall i, (i < length a)%nat -> (Z.abs (nth i a 0 - nth i b 0) <= n)%Z) -> (manhattan a b <= n * Z.of_nat (length a))%Z.
Proof.
  intros n a. induction a as [|x a IH]; intros [|y b] L H; try discriminate L; [cbn; lia|].
  change (manhattan (x :: a) (y :: b)) with (Z.abs (x - y) + manhattan a b)%Z. pose proof (H 0%nat ltac:(cbn; lia)) as H0. cbn [nth] in H0.
  assert (manhattan a b <= n * Z.of_nat (length a))%Z.
  { apply IH; [now injection L|]. intros i Hi. exact (H (S i) ltac:(cbn; lia)). }
  cbn [length]. lia.
Qed.

Lemma short_steps : forall d, (d = 2 \/ d = 3)%nat -> forall (o e b : point) (r : f32),
  length o = d -> length e = d -> length b = d -> ray_short r o e b ->
  (manhattan (cell_from_point F32A o b r) (cell_from_point F32A e b r) <= 3072)%Z.
Proof.
  intros d Hd o e b r Lo Le Lb HS. pose proof (r_pos o e b r (proj1 HS)) as Pr.
  pose proof (len_oc' d o b r Lo Lb) as LO. pose proof (len_oc' d e b r Le Lb) as LE.
  assert (Q : (manhattan (cell_from_point F32A o b r) (cell_from_point F32A e b r) <= 1024 * Z.of_nat (length (cell_from_point F32A o b r)))%Z).
  2:{ refine (Z.le_trans _ _ _ Q _). unfold cell in LO. rewrite LO. destruct Hd; subst; lia. }
  apply manhattan_bound; [congruence|]. intros i Hi. unfold cell in LO. rewrite LO in Hi.
  destruct (near_coords d Hd o e b r Lo Le Lb HS i Hi) as ([Fo Ao] & [Fe Ae] & _ & DE).
  destruct (cell_of d Hd o e b r Lo Le Lb HS o i Lo Hi Fo Ao) as [CO _].
  destruct (cell_of d Hd o e b r Lo Le Lb HS e i Le Hi Fe Ae) as [CE _].
  set (x := nth i (cell_from_point F32A o b r) 0%Z) in *. set (y := nth i (cell_from_point F32A e b r) 0%Z) in *. clearbody x y.
  apply Rabs_le_inv in CO, CE, DE.
  assert (H : Rabs (IZR (x - y)) * B2R r < 1025 * B2R r).
  { rewrite <- (Rabs_pos_eq (B2R r)) at 1 by lra. rewrite <- Rabs_mult, minus_IZR. apply Rabs_lt. lra. }
  apply Rmult_lt_reg_r in H; [|lra]. rewrite <- abs_IZR in H. apply lt_IZR in H. lia.
Qed.

Lemma reach_returns : forall d, (d = 2 \/ d = 3)%nat -> forall (o e b : point) (r : f32),
  length o = d -> length e = d -> length b = d -> ray_short r o e b -> end_clear (/ 16) r o e b ->
  forall fuel m, (3072 <= fuel)%nat -> exists rc oe, cast_ray F32A fuel o e b r m = Ret (rc, oe) /\
    (fltb f0 m = false -> oe = Some (cell_from_point F32A e b r)) /\
    (forall x, In x rc -> exists u, 0 <= u <= 1 /\
       in_grown_cell (/ 16) (map real b) (real r) x (seg (map real o) (map real e) u)).
Proof.
  intros d Hd o e b r Lo Le Lb HS HC fuel m F.
  assert (FZ : (manhattan (cell_from_point F32A o b r) (cell_from_point F32A e b r) <= Z.of_nat fuel)%Z).
  { pose proof (short_steps d Hd o e b r Lo Le Lb HS). lia. }
  destruct (reach_cast d Hd o e b r Lo Le Lb HS HC fuel f0 eq_refl FZ) as (path & E & _ & S & _).
  destruct (cast_limited_sub fuel d o e b r m path _ Hd Lo Le Lb E) as (rc & oe & E' & I & _).
  exists rc, oe. split; [exact E'|]. split.
  - intro Hm. rewrite (cast_unlimited fuel o e b r m f0 Hm eq_refl), E in E'. injection E' as _ <-. reflexivity.
  - intros x Hx. apply S. apply in_or_app. left. now apply I.
Qed.

(** ** Scans *)
Lemma clear_world_end : forall d (r : f32) (o p b : point) ks, (0 < real r) -> length p = d -> Forall (within_cells (2 ^ 15) r) b ->
  Forall2 (at_cell r) ks b -> length b = d -> world_clear (/ 8) r o p -> end_clear (/ 16) r o p b.
Proof.
  intros d r o p b ks Pr Lp WB AC Lb W i k Hi N. pose proof (W i) as Wi.
  assert (Hb : (i < length b)%nat) by (unfold point in *; lia).
  pose proof (Forall2_length _ _ _ AC) as LK.
  pose proof (Forall2_at _ _ _ 0%Z f0 AC i ltac:(unfold point in *; lia)) as [_ A].
  pose proof (proj1 (Forall_forall _ _) WB (nth i b f0) (nth_In _ _ Hb)) as [_ Wb]. change (IZR (2 ^ 15)) with 32768 in Wb.
  set (j := nth i ks 0%Z) in *. set (B := nth i b f0) in *. clearbody j B.
  specialize (Wi (j + k)%Z Hi N). set (E := real (nth i p f0)) in *. clearbody E. unfold real in *.
  change (bpow radix2 (-24)) with (/ 16777216) in A. rewrite plus_IZR in Wi.
  assert (J : Rabs (IZR j) * B2R r <= 40000 * B2R r).
  { assert (J0 : Rabs (IZR j * B2R r) = Rabs (IZR j) * B2R r) by (rewrite Rabs_mult, (Rabs_pos_eq (B2R r)); lra).
    assert (J1 : Rabs (IZR j * B2R r) <= Rabs (B2R B) + Rabs (B2R B - IZR j * B2R r)).
    { replace (IZR j * B2R r) with (B2R B - (B2R B - IZR j * B2R r)) at 1 by ring. eapply Rle_trans; [apply Rabs_triang|]. rewrite Rabs_Ropp. lra. }
    lra. }
  assert (A' : Rabs (B2R B - IZR j * B2R r) <= / 16 * B2R r) by lra.
  assert (T : Rabs (E - (IZR j + IZR k + / 2) * B2R r) <= Rabs (E - (B2R B + (IZR k + / 2) * B2R r)) + Rabs (B2R B - IZR j * B2R r)).
  { replace (E - (IZR j + IZR k + / 2) * B2R r) with ((E - (B2R B + (IZR k + / 2) * B2R r)) + (B2R B - IZR j * B2R r)) by ring. apply Rabs_triang. }
  lra.
Qed.

Lemma integrate_in_range : forall d r t fuel of oo m g g1 o cloud, map_range d r t -> reachable d r t g ->
  is_order of -> is_order oo -> matrix_ok cloud -> nrows cloud = d -> length o = d -> request_ok d r (pc_bounds cloud) ->
  gm_expand_bounds g (pc_bounds cloud) f0 = Ret g1 ->
  in_range (nd_shape (gm_data g1)) (gm_cell_from_point g1 o) ->
  (forall p, In p (pc_points cloud) -> Forall2 (axis_safe r) p (bmax (pc_bounds cloud)) /\
     ray_short r o p (bmin (gm_bounds g1)) /\ world_clear (/ 8) r o p) ->
  (3072 <= fuel)%nat -> exists g', integrate_point_cloud fuel of oo m g o cloud = Ret g'.
Proof.
  intros d r t fuel of oo m g g1 o cloud M H Hf Ho MO ND LO RQ E1 IO P F.
  pose proof (reach_expand _ _ _ _ _ _ _ H RQ E1) as H1. destruct (reachable_covers d r t g1 M H1) as [cb1 C1].
  apply (integrate_returns d r t fuel of oo m g g1 o cloud); try assumption.
  intros p Hp. destruct (P p Hp) as (A & S & W). pose proof (mcol_point_length cloud p MO Hp) as LP. rewrite ND in LP.
  assert (LB : length (bmin (gm_bounds g1)) = d). { pose proof (Forall2_length _ _ _ (cc_min _ _ _ _ _ C1)) as L. destruct (cc_ordered _ _ _ _ _ C1) as (L1 & _). unfold cell, point in *. congruence. }
  pose proof S as (RR & _ & WE & WB & _).
  split; [|split; [assumption|]].
  - eapply Forall_impl; [|exact WE]. now intros x [].
  - assert (EC : end_clear (/ 16) r o p (bmin (gm_bounds g1))).
    { apply (clear_world_end d r o p _ (cmin cb1)); try assumption; [|exact (cc_min _ _ _ _ _ C1)]. exact (r_pos _ _ _ _ RR). }
    destruct (reach_returns d (proj1 M) o p _ r LO LP LB S EC fuel f0 F) as (rc & oe & E & Q & _). rewrite (Q eq_refl) in E. eauto.
Qed.
