(** What integrating one scan does to the world. *)
From Coq Require Import ZArith List Bool Reals Lra Lia Psatz Permutation.
From Flocq Require Import Core BinarySingleNaN.
From Verif Require Import Base F32 FloatFacts RoundError Arith Geom NdArray GridMap RayCaster NoiseModel Spec SpecMap SpecNoise MathProofs ConverterProofs GeomProofs BoundsProofs CloudProofs NdProofs GridProofs ExpandProofs MapProofs RayProofs CastProofs RaysProofs NoiseProofs RayRange RayReach IntegrateRange RayLimit Examples.
Open Scope R_scope.

(** ** One beam *)
Lemma beam_facts : forall d, (d = 2 \/ d = 3)%nat -> forall (o e b : point) (r : f32),
  length o = d -> length e = d -> length b = d -> ray_short r o e b -> end_clear (/ 16) r o e b ->
  forall fuel m, limit_near m r -> (3072 <= fuel)%nat ->
  let ec := cell_from_point F32A e b r in
  exists rc oe, cast_ray F32A fuel o e b r m = Ret (rc, oe) /\ (oe = None \/ oe = Some ec) /\
    in_grown_cell (/ 16) (map real b) (real r) ec (seg (map real o) (map real e) 1) /\ length ec = d /\
    (forall x, In x rc -> length x = d /\ exists u, 0 <= u <= 1 /\ in_grown_cell (/ 16) (map real b) (real r) x (seg (map real o) (map real e) u)) /\
    (forall u y, length y = d -> 0 <= u <= 1 ->
       in_grown_cell (- / 16) (map real b) (real r) y (seg (map real o) (map real e) u) ->
       in_limit m r (u * dist (map real e) (map real o)) -> In y rc \/ oe = Some y) /\
    (forall y, length y = d -> in_grown_cell (- / 16) (map real b) (real r) y (seg (map real o) (map real e) 1) ->
       in_limit m r (dist (map real e) (map real o)) -> oe = Some y).
Proof.
  intros d Hd o e b r Lo Le Lb HS HC fuel m HM F ec. pose proof (r_pos o e b r (proj1 HS)) as Pr.
  assert (FZ : (manhattan (cell_from_point F32A o b r) ec <= Z.of_nat fuel)%Z).
  { pose proof (short_steps d Hd o e b r Lo Le Lb HS). unfold ec. lia. }
  destruct (reach_cast d Hd o e b r Lo Le Lb HS HC fuel f0 eq_refl FZ) as (path & E0 & _ & SN & CO). fold ec in E0, SN, CO.
  destruct (cast_completed fuel d o e b r f0 path ec Hd Lo Le Lb E0) as (_ & NE & _ & _ & BT).
  assert (LE : length ec = d) by exact (len_oc' d e b r Le Lb).
  pose proof (ec_grown d Hd o e b r Lo Le Lb HS) as GE. fold ec in GE.
  destruct (cast_limited_sub fuel d o e b r m path ec Hd Lo Le Lb E0) as (rc & oe & E & I & O).
  assert (COM : forall u y, length y = d -> 0 <= u <= 1 ->
       in_grown_cell (- / 16) (map real b) (real r) y (seg (map real o) (map real e) u) ->
       in_limit m r (u * dist (map real e) (map real o)) -> In y rc \/ oe = Some y).
  { intros u y Ly Hu G R. destruct (fltb f0 m) eqn:Em.
    - destruct HM as [HM|[Fm Bm]]; [congruence|]. destruct R as [R|R]; [congruence|].
      destruct (limited_cast d Hd o e b r Lo Le Lb HS HC fuel m Em Fm Bm F) as (rc' & oe' & E' & _ & _ & C). rewrite E in E'. injection E' as <- <-.
      exact (C u y Ly Hu G R).
    - rewrite (cast_unlimited fuel o e b r m f0 Em eq_refl), E0 in E. injection E as <- <-.
      specialize (CO u y Ly Hu G). apply in_app_or in CO. destruct CO as [C|[->|[]]]; auto. }
  exists rc, oe. split; [exact E|]. split; [exact O|]. split; [|split; [exact LE|split; [|split; [exact COM|]]]].
  - intros i Hi. eapply Rle_trans; [exact (GE i Hi)|]. apply Rmult_le_compat_r; [unfold real|]; lra.
  - intros x Hx. apply I in Hx. split.
    + destruct (BT x Hx) as [L _]. pose proof (len_oc' d o b r Lo Lb). congruence.
    + apply SN. apply in_or_app. now left.
  - intros y Ly G R. pose proof (grown_same d Hd o e b r Lo Le Lb HS ec y 1 LE Ly GE G) as <-.
    destruct (COM 1 ec LE ltac:(lra) G) as [C|C]; [now rewrite Rmult_1_l| |exact C]. now apply I in C.
Qed.

(** ** The limit *)
Lemma one_step_near : forall sg c c' i, one_step sg c c' -> (Z.abs (nth i c' 0 - nth i c 0) <= 1)%Z.
Proof.
  intros sg c c' i (j & Hj & S & ->). destruct (Nat.eq_dec i j) as [->|N].
  - rewrite nth_upd_same by assumption. lia.
  - rewrite nth_upd_other by auto. lia.
Qed.
Lemma connected_last : forall sg l (c : cell), l <> [] -> connected sg (l ++ [c]) -> exists y, In y l /\ one_step sg y c.
Proof.
  intros sg l c. induction l as [|a l IH]; intros N C; [now elim N|]. destruct l as [|b l].
  - exists a. split; [now left|]. exact (proj1 C).
  - destruct IH as (y & Hy & S); [discriminate|exact (proj2 C)|]. exists y. split; [now right|exact S].
Qed.
Lemma beam_range : forall d, (d = 2 \/ d = 3)%nat -> forall (o e b : point) (r : f32),
  length o = d -> length e = d -> length b = d -> ray_short r o e b -> end_clear (/ 16) r o e b ->
  forall fuel m, fltb f0 m = true -> finite m -> real m <= 1048576 * real r -> (3072 <= fuel)%nat ->
  forall rc oe, cast_ray F32A fuel o e b r m = Ret (rc, oe) -> forall x, In x rc \/ oe = Some x ->
  forall z, length z = d -> (forall i, (i < d)%nat -> Rabs (nth i z 0 - (real (nth i b f0) + IZR (nth i x 0%Z) * real r)) <= / 64 * real r) ->
  dist z (map real o) <= real m + 3 * real r.
Proof.
  intros d Hd o e b r Lo Le Lb HS HC fuel m Pm Fm Bm F rc oe E x Hx z Lz Hz. pose proof (r_pos o e b r (proj1 HS)) as Pr.
  destruct (limited_cast d Hd o e b r Lo Le Lb HS HC fuel m Pm Fm Bm F) as (rc' & oe' & E' & O & SN & _).
  rewrite E in E'. injection E' as <- <-. set (oc := cell_from_point F32A o b r) in *. set (ec := cell_from_point F32A e b r) in *.
  assert (LO : length oc = d) by exact (len_oc' d o b r Lo Lb).
  pose proof (cast_connected fuel d o e b r m rc oe Hd Lo Le Lb E) as [CC _].
  assert (Y : exists y, length y = d /\ (y = oc \/ dist (cell_centre (map real b) (real r) y) (map real o) <= real m + / 32 * real r) /\
    forall i, (Z.abs (nth i x 0 - nth i y 0) <= 1)%Z).
  { destruct (cast_returns F32A f32_inf_add f32_sig fuel d o e b r m rc oe Hd Lo Le Lb E) as [(Q1 & Q2 & Q3)|(_ & path & Q1 & Q2 & _ & Q4)].
    - fold oc ec in Q1, Q3. exists oc. split; [exact LO|]. split; [now left|]. intro i. destruct Hx as [Hx|Hx]; [rewrite Q2 in Hx; destruct Hx|].
      rewrite Q3 in Hx. injection Hx as <-. unfold cell in *. rewrite Q1. lia.
    - fold oc ec in Q1, Q4. assert (LR : forall y, In y rc -> length y = d).
      { intros y Hy. rewrite Q1 in Hy, Q2. destruct Hy as [<-|Hy]; [exact LO|]. pose proof (one_step_len _ _ _ Q2) as OL. rewrite Forall_forall in OL. rewrite (OL y Hy). exact LO. }
      destruct Hx as [Hx|Hx].
      + exists x. split; [now apply LR|]. split; [now apply SN|]. intro i. lia.
      + subst oe. destruct Q4 as [-> Q4]. destruct (connected_last (signs F32A (env_of F32A o e b r m)) rc ec) as (y & Hy & S); [rewrite Q1; discriminate|exact Q4|].
        exists y. split; [now apply LR|]. split; [now apply SN|]. intro i. exact (one_step_near _ _ _ i S). }
  destruct Y as (y & Ly & HY & Hxy). set (l := map2 (fun x y => x - y) z (map real o)).
  assert (Ll : length l = d) by (apply map2_len; [exact Lz|rewrite map_length; exact Lo]).
  assert (Nl : forall i, (i < d)%nat -> nth i l 0 = nth i z 0 - B2R (nth i o f0)).
  { intros i Hi. unfold l. clear - Lz Lo Hi. revert d z o Lz Lo Hi. induction i as [|i IH]; intros [|n] [|a z] [|c o] Lz Lo Hi; cbn in *; try lia; [reflexivity|]. apply (IH n); lia. }
  assert (D : dist z (map real o) = sqrt (sumsq l)).
  { unfold dist, l. f_equal. generalize (map real o). clear. induction z as [|x l IH]; intros [|y l']; cbn; auto. f_equal. apply IH. }
  assert (MP : 0 < real m). { change (is_finite m = true) in Fm. apply fltb_iff in Pm. destruct Pm as (_ & _ & Q). rewrite (ext_finite m) in Q by assumption. exact Q. }
  assert (ST : forall i, (i < d)%nat -> Rabs (nth i l 0) <= Rabs (B2R (nth i b f0) + IZR (nth i y 0%Z) * B2R r - B2R (nth i o f0)) + (1 + / 64) * B2R r).
  { intros i Hi. rewrite Nl by assumption. specialize (Hz i Hi). specialize (Hxy i). apply IZR_le in Hxy. rewrite abs_IZR, minus_IZR in Hxy.
    unfold real in Hz. set (X := IZR (nth i x 0%Z)) in *. set (Y := IZR (nth i y 0%Z)) in *. set (Zi := nth i z 0) in *.
    set (Bi := B2R (nth i b f0)) in *. set (Oi := B2R (nth i o f0)) in *. clearbody X Y Zi Bi Oi. unfold real in Pr.
    replace (Zi - Oi) with ((Bi + Y * B2R r - Oi) + ((Zi - (Bi + X * B2R r)) + (X - Y) * B2R r)) by ring.
    eapply Rle_trans; [apply Rabs_triang|]. apply Rplus_le_compat_l. eapply Rle_trans; [apply Rabs_triang|].
    rewrite Rabs_mult, (Rabs_pos_eq (B2R r)) by lra.
    assert (Rabs (X - Y) * B2R r <= 1 * B2R r) by (apply Rmult_le_compat_r; lra). lra. }
  rewrite D. apply Rsqr_incr_0_var; [|unfold real in *; lra]. rewrite Rsqr_sqrt by apply sumsq_pos. unfold Rsqr, real in *.
  assert (SQ : forall a c, 0 <= a <= c -> a * a <= c * c) by (intros; nra).
  destruct HY as [->|HY].
  - eapply Rle_trans; [apply (sumsq_near l (repeat 0 d) ((/ 2 + / 17 + 1 + / 64) * B2R r) 0);
      [rewrite Ll; exact Hd|rewrite Ll, repeat_length; reflexivity|lra|lra| |]|].
    + intros i Hi. rewrite Ll in Hi. rewrite nth_repeat. eapply Rle_trans; [exact (ST i Hi)|]. rewrite Rabs_R0.
      destruct (near_coords d Hd o e b r Lo Le Lb HS i Hi) as ([Fo Ao] & _).
      destruct (cell_of d Hd o e b r Lo Le Lb HS o i Lo Hi Fo Ao) as [GO _]. fold oc in GO.
      rewrite Rabs_minus_sym in GO. lra.
    + clear. induction d; cbn; [lra|]. fold (sumsq (repeat 0 d)). lra.
    + apply SQ. lra.
  - change (dist (cell_centre (map real b) (B2R r) y) (map real o) <= B2R m + / 32 * B2R r) in HY.
    rewrite (dist_off d o b r y Ly) in HY. assert (HA : sumsq (off o b r y) <= (B2R m + / 32 * B2R r) * (B2R m + / 32 * B2R r)).
    { rewrite <- (sqrt_sqrt _ (sumsq_pos (off o b r y))). apply SQ. split; [apply sqrt_pos|exact HY]. }
    eapply Rle_trans; [apply (sumsq_near l (off o b r y) ((1 + / 64) * B2R r) (B2R m + / 32 * B2R r));
      [rewrite Ll; exact Hd|rewrite Ll; exact (off_len d o b r Lo Lb y Ly)|lra|lra| |exact HA]|].
    + intros i Hi. rewrite Ll in Hi. rewrite (nth_off d o b r Lo Lb) by assumption. exact (ST i Hi).
    + apply SQ. lra.
Qed.

(** ** Cells of the map and cells of the world *)
Lemma world_axis : forall d (r : f32) (ks : cell) (b : point), 0 < real r -> Forall (within_cells (2 ^ 15) r) b -> Forall2 (at_cell r) ks b ->
  length b = d -> forall (w : cell) i, length w = d -> (i < d)%nat ->
  nth i (map2 Z.sub w ks) 0%Z = (nth i w 0 - nth i ks 0)%Z /\ Rabs (nth i (map real b) 0 - IZR (nth i ks 0%Z) * real r) <= / 64 * real r.
Proof.
  intros d r ks b Pr WB AC Lb w i Lw Hi.
  pose proof (Forall2_length _ _ _ AC) as LK. unfold cell, point in *.
  split. { clear - Lw LK Lb Hi. revert w ks d b Lw LK Lb Hi. induction i; intros [|a w] [|k ks] [|d] [|x b]; cbn; intros; try lia. eapply IHi; eauto; lia. }
  pose proof (Forall2_at _ _ _ 0%Z f0 AC i ltac:(lia)) as [_ A].
  assert (Hb : (i < length b)%nat) by lia.
  pose proof (proj1 (Forall_forall _ _) WB (nth i b f0) (nth_In _ _ Hb)) as [_ Wb]. change (IZR (2 ^ 15)) with 32768 in Wb.
  rewrite nth_real by lia. set (j := nth i ks 0%Z) in *. set (B := nth i b f0) in *. clearbody j B. unfold real in *.
  change (bpow radix2 (-24)) with (/ 16777216) in A.
  assert (J0 : Rabs (IZR j * B2R r) = Rabs (IZR j) * B2R r) by (rewrite Rabs_mult, (Rabs_pos_eq (B2R r)); lra).
  assert (J1 : Rabs (IZR j * B2R r) <= Rabs (B2R B) + Rabs (B2R B - IZR j * B2R r)).
  { replace (IZR j * B2R r) with (B2R B - (B2R B - IZR j * B2R r)) at 1 by ring. eapply Rle_trans; [apply Rabs_triang|]. rewrite Rabs_Ropp. lra. }
  lra.
Qed.
Lemma grown_world : forall d (r : f32) (ks : cell) (b : point), 0 < real r -> Forall (within_cells (2 ^ 15) r) b -> Forall2 (at_cell r) ks b ->
  length b = d -> forall g h w p, length w = d -> g + / 64 <= h ->
  (near_world g r w p -> in_grown_cell h (map real b) (real r) (map2 Z.sub w ks) p) /\
  (in_grown_cell g (map real b) (real r) (map2 Z.sub w ks) p -> near_world h r w p).
Proof.
  intros d r ks b Pr WB AC Lb g h w p Lw Hg.
  pose proof (fun i => world_axis d r ks b Pr WB AC Lb w i Lw) as K.
  pose proof (Forall2_length _ _ _ AC) as LK. unfold cell, point in *.
  assert (LS : length (map2 Z.sub w ks) = d) by (apply map2_len; lia).
  assert (HR : g * real r + / 64 * real r <= h * real r) by (rewrite <- Rmult_plus_distr_r; apply Rmult_le_compat_r; lra).
  split; intros H i Hi.
  - rewrite LS in Hi. destruct (K i Hi) as [E A]. specialize (H i ltac:(lia)). rewrite E, minus_IZR.
    apply Rabs_le_inv in H, A. apply Rabs_le. lra.
  - rewrite Lw in Hi. destruct (K i Hi) as [E A]. specialize (H i ltac:(lia)). rewrite E, minus_IZR in H.
    apply Rabs_le_inv in H, A. apply Rabs_le. lra.
Qed.

Lemma seg_end : forall o e : list R, length o = length e -> seg o e 1 = e.
Proof. induction o as [|x o IH]; intros [|y e] L; try discriminate L; [reflexivity|]. cbn. f_equal; [ring|]. apply IH. now injection L. Qed.

(** ** The scan *)
Lemma scan_world : forall d r t fuel of oo m g g1 o cloud, map_range d r t -> reachable d r t g ->
  is_order of -> is_order oo -> matrix_ok cloud -> nrows cloud = d -> length o = d -> request_ok d r (pc_bounds cloud) ->
  gm_expand_bounds g (pc_bounds cloud) f0 = Ret g1 ->
  in_range (nd_shape (gm_data g1)) (gm_cell_from_point g1 o) ->
  (forall p, In p (pc_points cloud) -> Forall2 (axis_safe r) p (bmax (pc_bounds cloud)) /\
     ray_short r o p (bmin (gm_bounds g1)) /\ world_clear (/ 8) r o p) ->
  (3072 <= fuel)%nat -> limit_near (max_range m) r ->
  let beam p u := seg (map real o) (map real p) u in
  let length_of p := dist (map real p) (map real o) in
  exists g' cb cb', integrate_point_cloud fuel of oo m g o cloud = Ret g' /\
    covers_cells d r t g cb /\ covers_cells d r t g' cb' /\ (forall w, in_box cb w -> in_box cb' w) /\
    forall w, length w = d ->
      (forall p, In p (pc_points cloud) -> near_world (- / 8) r w (map real p) -> in_limit (max_range m) r (length_of p) ->
         in_box cb' w /\ exists old, world_value g cb f0 w old /\
           gm_get g' (map2 Z.sub w (cmin cb')) = Ret (evidence m old true)) /\
      (forall p u, In p (pc_points cloud) -> 0 <= u <= 1 -> near_world (- / 8) r w (beam p u) ->
         in_limit (max_range m) r (u * length_of p) ->
         (forall q, In q (pc_points cloud) -> ~ near_world (/ 8) r w (map real q)) ->
         in_box cb' w /\ exists old, world_value g cb f0 w old /\
           gm_get g' (map2 Z.sub w (cmin cb')) = Ret (evidence m old false)) /\
      (in_box cb' w -> (forall p u, In p (pc_points cloud) -> 0 <= u <= 1 -> ~ near_world (/ 8) r w (beam p u)) ->
         exists old, world_value g cb f0 w old /\ gm_get g' (map2 Z.sub w (cmin cb')) = Ret old) /\
      (in_box cb' w -> fltb f0 (max_range m) = true ->
         real (max_range m) + 3 * real r < dist (map (fun k => IZR k * real r) w) (map real o) ->
         exists old, world_value g cb f0 w old /\ gm_get g' (map2 Z.sub w (cmin cb')) = Ret old).
Proof.
  intros d r t fuel of oo m g g1 o cloud M H Hf Ho MO ND LO RQ E1 IO P F HM beam length_of.
  destruct (integrate_in_range d r t fuel of oo m g g1 o cloud M H Hf Ho MO ND LO RQ E1 IO P F) as [g' E].
  destruct (wf_of_reachable d r t g M H) as [cb0 W0].
  destruct (integrate_spec fuel of oo m g o cloud g' Hf Ho (wf_storage _ _ _ _ _ W0) E) as (g1' & _ & _ & E1' & _ & _ & _ & _ & EB & _).
  assert (g1' = g1) by congruence. subst g1'. clear E1' W0 cb0.
  destruct (integrate_places d r t fuel of oo m g o cloud g' M H RQ Hf Ho E) as (cb & cb' & free & occ & C & C' & EC & RNG & SUB & PL).
  exists g', cb, cb'. split; [exact E|]. split; [exact C|]. split; [exact C'|]. split; [exact SUB|].
  destruct (cast_rays_sets _ _ _ _ _ _ _ _ EC) as (_ & OCC & FREE & _).
  set (b := bmin (gm_bounds g')) in *.
  assert (Eb : bmin (gm_bounds g1) = b) by (unfold b; now rewrite EB). rewrite Eb in P.
  assert (LB : length b = d). { pose proof (Forall2_length _ _ _ (cc_min _ _ _ _ _ C')) as L. destruct (cc_ordered _ _ _ _ _ C') as (L1 & _). unfold b, cell, point in *. congruence. }
  pose proof (cc_min _ _ _ _ _ C') as AC. fold b in AC.
  destruct (cc_ordered _ _ _ _ _ C') as (LM & LX & _).
  assert (Pr : 0 < real r) by exact (res_ok_pos r (proj1 (proj2 M))).
  assert (RG : fltb f0 (max_range m) = true -> forall w, length w = d ->
     real (max_range m) + 3 * real r < dist (map (fun k => IZR k * real r) w) (map real o) ->
     forall p, In p (pc_points cloud) -> forall rc oe, cast_ray F32A fuel o p b r (max_range m) = Ret (rc, oe) ->
     In (map2 Z.sub w (cmin cb')) rc \/ oe = Some (map2 Z.sub w (cmin cb')) -> False).
  { intros Em w Lw FAR p Hp rc oe Ep Hc. destruct (P p Hp) as (_ & S & WC). pose proof (mcol_point_length cloud p MO Hp) as LP. rewrite ND in LP.
    pose proof S as (RR & _ & _ & WB & _). destruct HM as [HM|[Fm Bm]]; [congruence|]. revert FAR. apply Rle_not_lt.
    apply (beam_range d (proj1 M) o p b r LO LP LB S) with (fuel := fuel) (rc := rc) (oe := oe) (x := map2 Z.sub w (cmin cb')); try assumption.
    { apply (clear_world_end d r o p b (cmin cb')); assumption. } { rewrite map_length. exact Lw. }
    intros i Hi. destruct (world_axis d r (cmin cb') b Pr WB AC LB w i Lw Hi) as [E0 A]. unfold cell in *. rewrite E0, minus_IZR.
    replace (nth i (map (fun k => IZR k * real r) w) 0) with (IZR (nth i w 0%Z) * real r).
    - rewrite nth_real in A by (unfold point in *; lia). unfold real in *. rewrite Rabs_minus_sym in A. rewrite Rabs_minus_sym. 
      match goal with |- Rabs ?x <= _ => replace x with (B2R (nth i b f0) - IZR (nth i (cmin cb') 0%Z) * B2R r) by ring end.
      rewrite Rabs_minus_sym. exact A.
    - symmetry. rewrite (nth_indep _ _ (IZR 0 * real r)) by (rewrite map_length; lia). apply (map_nth (fun k => IZR k * real r)). }
  assert (B : forall p, In p (pc_points cloud) -> length p = d /\ Forall (within_cells (2 ^ 15) r) b /\
     exists rc oe, cast_ray F32A fuel o p b r (max_range m) = Ret (rc, oe) /\ (oe = None \/ oe = Some (cell_from_point F32A p b r)) /\
    in_grown_cell (/ 16) (map real b) (real r) (cell_from_point F32A p b r) (beam p 1) /\ length (cell_from_point F32A p b r) = d /\
    (forall x, In x rc -> length x = d /\ exists u, 0 <= u <= 1 /\ in_grown_cell (/ 16) (map real b) (real r) x (beam p u)) /\
    (forall u y, length y = d -> 0 <= u <= 1 -> in_grown_cell (- / 16) (map real b) (real r) y (beam p u) ->
       in_limit (max_range m) r (u * length_of p) -> In y rc \/ oe = Some y) /\
    (forall y, length y = d -> in_grown_cell (- / 16) (map real b) (real r) y (beam p 1) ->
       in_limit (max_range m) r (length_of p) -> oe = Some y)).
  { clear RG. intros p Hp. destruct (P p Hp) as (_ & S & WC). pose proof (mcol_point_length cloud p MO Hp) as LP. rewrite ND in LP.
    pose proof S as (RR & _ & _ & WB & _). split; [exact LP|]. split; [exact WB|].
    apply (beam_facts d (proj1 M) o p b r LO LP LB S); try assumption.
    apply (clear_world_end d r o p b (cmin cb')); assumption. }
  clear P. intros w Lw. set (c := map2 Z.sub w (cmin cb')).
  assert (Lc : length c = d) by (unfold c; apply map2_len; unfold cell in *; congruence).
  assert (INB : in_range (nd_shape (gm_data g')) c -> in_box cb' w).
  { intro R. apply box_range; [congruence|]. split; [congruence|]. rewrite (cc_shape _ _ _ _ _ C') in R. exact R. }
  assert (OC : forall q, In q (pc_points cloud) -> c = cell_from_point F32A q b r -> near_world (/ 8) r w (map real q)).
  { intros q Hq Ec. destruct (B q Hq) as (Lq & WB & rc & oe & _ & _ & G & _). rewrite <- Ec in G.
    unfold beam in G. rewrite seg_end in G by (rewrite !map_length; unfold point in *; congruence).
    refine (proj2 (grown_world d r (cmin cb') b Pr WB AC LB (/ 16) (/ 8) w (map real q) Lw _) G). lra. }
  assert (NO : forall q, In q (pc_points cloud) -> forall rc, cast_ray F32A fuel o q b r (max_range m) = Ret (rc, Some c) -> c = cell_from_point F32A q b r).
  { intros q Hq rc Eq. destruct (B q Hq) as (_ & _ & rc' & oe & Eq' & [O|O] & _); rewrite Eq in Eq'; injection Eq' as _ Q; congruence. }
  split; [|split; [|split]].
  - intros p Hp N R. destruct (B p Hp) as (Lp & WB & rc & oe & Ep & _ & _ & _ & _ & _ & END).
    assert (Q : oe = Some c).
    { apply END; try assumption. unfold beam. rewrite seg_end by (rewrite !map_length; unfold point in *; congruence).
      refine (proj1 (grown_world d r (cmin cb') b Pr WB AC LB (- / 8) (- / 16) w (map real p) Lw _) N). lra. }
    assert (IOC : In c occ) by (subst oe; apply OCC; exists p, rc; split; [exact Hp|exact Ep]).
    assert (IB : in_box cb' w) by (apply INB, RNG; auto). split; [exact IB|].
    destruct (PL w IB) as (old & OLD & O & _). exists old. split; [exact OLD|]. exact (O IOC).
  - intros p u Hp Hu N R FAR. destruct (B p Hp) as (Lp & WB & rc & oe & Ep & O & _ & _ & _ & COM & _).
    assert (NOC : ~ In c occ). { intro I. apply OCC in I. destruct I as (q & rc' & Hq & Eq). exact (FAR q Hq (OC q Hq (NO q Hq rc' Eq))). }
    assert (IR : In c rc).
    { destruct (COM u c Lc Hu) as [I|I]; [|exact R|exact I|].
      - refine (proj1 (grown_world d r (cmin cb') b Pr WB AC LB (- / 8) (- / 16) w (beam p u) Lw _) N). lra.
      - exfalso. subst oe. apply NOC. apply OCC. exists p, rc. split; [exact Hp|exact Ep]. }
    assert (IF : In c free) by (apply FREE; split; [exists p, rc, oe; auto|exact NOC]).
    assert (IB : in_box cb' w) by (apply INB, RNG; auto). split; [exact IB|].
    destruct (PL w IB) as (old & OLD & _ & Fr & _). exists old. split; [exact OLD|]. exact (Fr IF).
  - intros IB FAR. destruct (PL w IB) as (old & OLD & _ & _ & U). exists old. split; [exact OLD|]. apply U.
    + intro I. apply OCC in I. destruct I as (q & rc' & Hq & Eq). apply (FAR q 1 Hq ltac:(lra)).
      destruct (B q Hq) as (Lq & _). unfold beam. rewrite seg_end by (rewrite !map_length; unfold point in *; congruence).
      exact (OC q Hq (NO q Hq rc' Eq)).
    + intro I. apply FREE in I. destruct I as [(q & rc & oe & Hq & Eq & I) _].
      destruct (B q Hq) as (Lq & WB & rc' & oe' & Eq' & _ & _ & _ & SN & _). rewrite Eq in Eq'. injection Eq' as <- <-.
      destruct (SN _ I) as (_ & u & Hu & G). apply (FAR q u Hq Hu).
      refine (proj2 (grown_world d r (cmin cb') b Pr WB AC LB (/ 16) (/ 8) w (beam q u) Lw _) G). lra.
  - intros IB Em FAR. destruct (PL w IB) as (old & OLD & _ & _ & U). exists old. split; [exact OLD|]. apply U.
    + intro I. apply OCC in I. destruct I as (q & rc' & Hq & Eq). apply (RG Em w Lw FAR q Hq _ _ Eq). now right.
    + intro I. apply FREE in I. destruct I as [(q & rc & oe & Hq & Eq & I) _]. apply (RG Em w Lw FAR q Hq _ _ Eq). now left.
Qed.

(** ** Sequences of scans *)
Lemma scanned_facts : forall d r t m o L, scanned d r t m o L -> om_model o = m /\ reachable d r t (om_grid o).
Proof.
  intros d r t m o L H. induction H as [o E|o L fuel of oo origin cloud o' _ [IHm IH] _ _ (_ & _ & _ & RQ & _) _ E|o L x _ [IHm IH]|o L _ [IHm IH]].
  - unfold om_new in E. destruct (gm_new _ _ _ _) as [g| |] eqn:G; try discriminate. cbn [obind] in E. injection E as <-. cbn. split; [reflexivity|]. eapply reach_new; exact G.
  - unfold om_integrate in E. destruct (integrate_point_cloud _ _ _ _ _ _ _) as [g| |] eqn:G; try discriminate. cbn [obind] in E. injection E as <-. cbn.
    split; [assumption|]. eapply integrate_reachable; eassumption.
  - split; [assumption|]. now apply reach_track.
  - split; [assumption|]. now apply reach_clear.
Qed.

(** One scan in the words of [says]. *)
Lemma scan_says : forall d r t fuel of oo m g o cloud, map_range d r t -> reachable d r t g ->
  is_order of -> is_order oo -> scan_ok d r g o cloud -> (3072 <= fuel)%nat -> limit_near (max_range m) r ->
  exists g' cb cb', integrate_point_cloud fuel of oo m g o cloud = Ret g' /\
    covers_cells d r t g cb /\ covers_cells d r t g' cb' /\ (forall w, in_box cb w -> in_box cb' w) /\
    forall w v old, length w = d -> says (max_range m) r w (o, cloud) v -> world_value g cb f0 w old ->
      world_value g' cb' f0 w (observe m old v) /\ (v <> None -> in_box cb' w).
Proof.
  intros d r t fuel of oo m g o cloud M H Hf Ho (MO & ND & LO & RQ & P) F HM.
  destruct (wf_of_reachable d r t g M H) as [cb0 W0].
  destruct (expand_step d r t g cb0 (pc_bounds cloud) f0 M W0 RQ) as (db & g1 & _ & _ & _ & E1 & _).
  destruct (P g1 E1) as [IO P1].
  destruct (scan_world d r t fuel of oo m g g1 o cloud M H Hf Ho MO ND LO RQ E1 IO P1 F HM) as (g' & cb & cb' & E & C & C' & SUB & Q).
  exists g', cb, cb'. split; [exact E|]. split; [exact C|]. split; [exact C'|]. split; [exact SUB|].
  intros w v old Lw S V. destruct (Q w Lw) as (HIT & MISS & OUT & FAR).
  assert (SAME : forall x, world_value g cb f0 w x -> x = old).
  { intros x X. destruct (in_box_dec cb w) as [B|B].
    - pose proof (proj1 X B) as X1. pose proof (proj1 V B) as V1. congruence.
    - rewrite (proj2 X B), (proj2 V B). reflexivity. }
  assert (YES : forall x, in_box cb' w /\ (exists old, world_value g cb f0 w old /\ gm_get g' (map2 Z.sub w (cmin cb')) = Ret (evidence m old x)) ->
     world_value g' cb' f0 w (evidence m old x) /\ (Some x <> None -> in_box cb' w)).
  { intros x (IB & v0 & V0 & G). apply SAME in V0. subst v0. split; [split; [intros _; exact G|intro N; now elim N]|auto]. }
  destruct v as [[|]|]; cbn [says fst snd observe] in *.
  - destruct S as (p & Hp & N & R). apply YES. exact (HIT p Hp N R).
  - destruct S as ((p & u & Hp & Hu & N & R) & A). apply YES. exact (MISS p u Hp Hu N R A).
  - split; [|now intro N; elim N]. split.
    + intro IB. assert (G : exists old, world_value g cb f0 w old /\ gm_get g' (map2 Z.sub w (cmin cb')) = Ret old).
      { destruct S as [S|[S1 S2]]; [exact (OUT IB S)|exact (FAR IB S1 S2)]. }
      destruct G as (v0 & V0 & G). apply SAME in V0. subst v0. exact G.
    + intro NB. apply (proj2 V). intro B. now apply NB, SUB.
Qed.

Lemma scans_values : forall d r t m o L w vs, map_range d r t -> limit_near (max_range m) r -> scanned d r t m o L ->
  length w = d -> Forall2 (says (max_range m) r w) L vs ->
  exists cb, covers_cells d r t (om_grid o) cb /\ world_value (om_grid o) cb f0 w (fold_left (observe m) vs f0) /\
    (Exists (fun v => v <> None) vs -> in_box cb w).
Proof.
  intros d r t m o L w vs M HM H Lw. revert vs.
  induction H as [o E|o L fuel of oo origin cloud o' H IH Hf Ho OK F E|o L x H IH|o L H IH]; intros vs S.
  - inversion_clear S. pose proof (scanned_facts _ _ _ _ _ _ (scanned_new d r t m o E)) as [_ R].
    unfold om_new in E. destruct (gm_new _ _ _ _) as [g| |] eqn:G; try discriminate. cbn [obind] in E. injection E as <-. cbn [om_grid] in *.
    rewrite (empty_bounds d r (proj1 (proj2 M))) in G. destruct (zero_ordered d t) as (O & T & N0). destruct (wf_new _ _ _ _ _ _ M O T N0 G) as [W0 _].
    exists (cb_empty d). split; [now apply wf_covers|]. split; [|intro X; inversion X]. split; [|reflexivity].
    intros Hw. exfalso. apply (box_range _ w) in Hw; [|reflexivity]. destruct Hw as [_ Hw]. revert Hw. apply empty_no_cells, M.
  - apply Forall2_app_inv_l in S. destruct S as (vs1 & vs2 & S1 & S2 & ->). inversion_clear S2 as [|? v ? ? Sv S0]. inversion_clear S0.
    destruct (IH vs1 S1) as (cb & C & V & B). destruct (scanned_facts _ _ _ _ _ _ H) as [Em Rg].
    unfold om_integrate in E. rewrite Em in E.
    destruct (scan_says d r t fuel of oo m (om_grid o) origin cloud M Rg Hf Ho OK F HM) as (g' & cb0 & cb' & E' & C0 & C' & SUB & Q).
    rewrite E' in E. cbn [obind] in E. injection E as <-. cbn [om_grid].
    rewrite (covers_unique d r t _ _ _ (proj1 (proj2 M)) C0 C) in Q, SUB. clear cb0 C0.
    destruct (Q w v _ Lw Sv V) as [V' B']. exists cb'. split; [exact C'|]. split; [rewrite fold_left_app; exact V'|].
    intro X. apply Exists_app in X. destruct X as [X|X]; [now apply SUB, B|]. inversion_clear X as [? ? X1|? ? X1]; [now apply B'|inversion X1].
  - destruct (IH vs S) as (cb & C & V & B). exists cb. split; [|split; [exact V|exact B]].
    destruct C as [C1 C2 C3 C4 C5 C6 C7 C8 C9]. constructor; assumption.
  - destruct (IH vs S) as (cb & C & V & B). exists cb. split; [|split; [exact V|exact B]].
    destruct C as [C1 C2 C3 C4 C5 C6 C7 C8 C9]. constructor; assumption.
Qed.

Lemma scans_continue : forall d r t m o L fuel of oo origin cloud, map_range d r t -> limit_near (max_range m) r ->
  scanned d r t m o L -> is_order of -> is_order oo -> scan_ok d r (om_grid o) origin cloud -> (3072 <= fuel)%nat ->
  exists o', om_integrate fuel of oo o origin cloud = Ret o'.
Proof.
  intros d r t m o L fuel of oo origin cloud M HM H Hf Ho OK F. destruct (scanned_facts _ _ _ _ _ _ H) as [Em Rg].
  destruct (scan_says d r t fuel of oo m (om_grid o) origin cloud M Rg Hf Ho OK F HM) as (g' & _ & _ & E & _).
  unfold om_integrate. rewrite Em, E. cbn. eauto.
Qed.

(** ** Static scenes *)
Lemma fle_trans' : forall x y z, fle x y -> fle y z -> fle x z.
Proof. intros x y z H K. apply fle_iff in H, K. apply fle_iff. intuition lra. Qed.
Lemma flt_fle_trans : forall x y z, fltb x y = true -> fle y z -> fltb x z = true.
Proof. intros x y z H K. apply fltb_iff in H. apply fle_iff in K. apply fltb_iff. intuition lra. Qed.

Lemma static_hits : forall m vs v, fle f0 (hit_logodds m) -> fle v (max_logodds m) -> Forall (fun x => x = None \/ x = Some true) vs ->
  let v' := fold_left (observe m) vs v in fle v v' /\ fle v' (max_logodds m).
Proof.
  intros m vs. induction vs as [|x vs IH]; intros v H V F; cbn [fold_left].
  - split; [exact (fle_refl_l _ _ V)|exact V].
  - inversion F as [|? ? [->| ->] F']; subst; cbn [observe]; [now apply IH|].
    destruct (hit_up m v H V) as [H1 H2]. unfold hit_value in H1, H2. destruct (IH (evidence m v true) H H2 F') as [H3 H4]. split; [exact (fle_trans' _ _ _ H1 H3)|exact H4].
Qed.
Lemma static_first : forall m vs, fle f0 (hit_logodds m) -> fle f0 (max_logodds m) -> Forall (fun x => x = None \/ x = Some true) vs ->
  Exists (fun v => v <> None) vs -> fle (evidence m f0 true) (fold_left (observe m) vs f0).
Proof.
  intros m vs H V F X. induction X as [x vs N|x vs X IH]; inversion F as [|? ? Fx F']; subst.
  - destruct Fx as [->| ->]; [now elim N|]. cbn [fold_left observe]. apply static_hits; auto. exact (proj2 (hit_up m f0 H V)).
  - destruct Fx as [->| ->]; cbn [fold_left observe]; [now apply IH|]. apply static_hits; auto. exact (proj2 (hit_up m f0 H V)).
Qed.
Lemma static_misses : forall m vs v, fle (miss_logodds m) f0 -> fle (min_logodds m) v -> Forall (fun x => x = None \/ x = Some false) vs ->
  let v' := fold_left (observe m) vs v in fle v' v /\ fle (min_logodds m) v'.
Proof.
  intros m vs. induction vs as [|x vs IH]; intros v H V F; cbn [fold_left].
  - split; [exact (fle_refl_r _ _ V)|exact V].
  - inversion F as [|? ? [->| ->] F']; subst; cbn [observe]; [now apply IH|].
    destruct (miss_down m v H V) as [H1 H2]. unfold miss_value in H1, H2. destruct (IH (evidence m v false) H H2 F') as [H3 H4]. split; [exact (fle_trans' _ _ _ H3 H1)|exact H4].
Qed.

Lemma static_scene : forall d r t m o L w vs, map_range d r t -> limit_near (max_range m) r -> signs_ok m -> scanned d r t m o L ->
  length w = d -> Forall2 (says (max_range m) r w) L vs -> Exists (fun v => v <> None) vs ->
  exists cb, covers_cells d r t (om_grid o) cb /\ in_box cb w /\
    (Forall (fun v => v = None \/ v = Some true) vs ->
       fltb (occupied_threshold_logodds m) (evidence m f0 true) = true -> om_occupied o (map2 Z.sub w (cmin cb)) = Ret true) /\
    (Forall (fun v => v = None \/ v = Some false) vs ->
       fle f0 (occupied_threshold_logodds m) -> om_occupied o (map2 Z.sub w (cmin cb)) = Ret false).
Proof.
  intros d r t m o L w vs M HM (S1 & S2 & S3 & S4) H Lw S X.
  destruct (scans_values d r t m o L w vs M HM H Lw S) as (cb & C & [V _] & B). specialize (B X). specialize (V B).
  destruct (scanned_facts _ _ _ _ _ _ H) as [Em _]. exists cb. split; [exact C|]. split; [exact B|].
  unfold om_occupied, occupied. rewrite Em, V. cbn [obind]. split; intros F T; f_equal.
  - apply (flt_fle_trans _ _ _ T). now apply static_first.
  - apply Bool.not_true_iff_false. intro N. destruct (static_misses m vs f0 S2 S3 F) as [K _].
    pose proof (flt_fle_trans _ _ _ N (fle_trans' _ _ _ K T)) as Q. apply fltb_iff in Q. destruct Q as (_ & _ & Q). lra.
Qed.

Lemma default_detects : forall ln, ln_special ln -> ln_monotone ln -> (forall x, fltb f1 x = true -> fltb f0 (ln x) = true) ->
  exists m, lidar_default ln = Ret m /\ signs_ok m /\ fltb (occupied_threshold_logodds m) (evidence m f0 true) = true /\
    fle f0 (occupied_threshold_logodds m) /\ limit_near (max_range m) DEFAULT_RESOLUTION.
Proof.
  intros ln S Mo Po. destruct (default_signs ln S Mo) as (m & E & SG). exists m. split; [exact E|]. split; [exact SG|].
  unfold lidar_default, lidar_new, oassert in E.
  repeat match type of E with context [is_probability ?p] => replace (is_probability p) with true in E by (vm_compute; reflexivity) end. cbn [obind] in E.
  injection E as <-. unfold evidence. cbn [occupied_threshold_logodds hit_logodds max_logodds max_range].
  assert (Z0 : feqb (logodds_from_probability F32A ln DEFAULT_OCCUPIED_THRESHOLD) f0 = true).
  { replace DEFAULT_OCCUPIED_THRESHOLD with fhalf by (apply B2SF_inj; vm_compute; reflexivity). apply (MathProofs.logodds_special ln S). }
  apply feqb_iff in Z0. destruct Z0 as (N1 & N2 & Z0). set (thr := logodds_from_probability F32A ln DEFAULT_OCCUPIED_THRESHOLD) in *. clearbody thr.
  assert (H1 : fltb f0 (logodds_from_probability F32A ln DEFAULT_HIT_PROBABILITY) = true) by (apply Po; vm_compute; reflexivity).
  assert (H2 : fltb f0 (logodds_from_probability F32A ln DEFAULT_MAX_PROBABILITY) = true) by (apply Po; vm_compute; reflexivity).
  set (h := logodds_from_probability F32A ln DEFAULT_HIT_PROBABILITY) in *. set (x := logodds_from_probability F32A ln DEFAULT_MAX_PROBABILITY) in *. clearbody h x.
  split; [|split].
  - assert (A : fadd f0 h = h) by (destruct h as [s|s| |s mm e B]; [discriminate H1| | |]; reflexivity).
    change (T F32A) with f32 in *. rewrite A. apply fltb_iff in H1, H2. destruct H1 as (_ & Nh & H1), H2 as (_ & Nx & H2).
    apply fltb_iff. split; [exact N1|]. split; [now apply fmin_nan|]. rewrite fmin_ext by assumption. unfold Rmin. destruct (Rle_dec _ _); lra.
  - apply fle_iff. repeat split; auto. lra.
  - right. split; [vm_compute; reflexivity|].
    unfold real, DEFAULT_MAX_RANGE, DEFAULT_RESOLUTION. closed_float (f32_lit 60 1). closed_float (f32_lit 1 10). rewrite V, V0. lra.
Qed.
