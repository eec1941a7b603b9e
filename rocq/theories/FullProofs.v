(** C99: a sensor without a length limit. *)
From Coq Require Import ZArith List Bool Reals Lra Lia.
From Flocq Require Import Core BinarySingleNaN Mult_error.
From Verif Require Import Base F32 FloatFacts Arith Geom NdArray GridMap RayCaster NoiseModel Spec SpecMap SpecNoise SpecBack SpecMeet SpecNear SpecWorld SpecWall SpecFull ConverterProofs GeomProofs NdProofs
  MapProofs ExpandProofs RayProofs CastProofs RaysProofs NoiseProofs ScanProofs LimitSameProofs MeetProofs MeetMapProofs MoveProofs NearProofs NearMapProofs WorldProofs RayReach IntegrateRange SameProofs WorldMapProofs WallProofs.
Open Scope R_scope.

(** ** A limit that no beam in range reaches *)
Definition far_limit (r : f32) : f32 := fmul r (f32_of_Z 1048576).
Lemma far_value : forall r, res_ok r -> finite (far_limit r) /\ real (far_limit r) = 1048576 * real r /\ fltb f0 (far_limit r) = true.
Proof.
  intros r R. pose proof (res_ok_pos r R) as P. destruct R as [F [_ U]].
  destruct (f32_of_Z_exact 1048576 ltac:(lia)) as [F1 V1].
  assert (RN : rnd (B2R r * B2R (f32_of_Z 1048576)) = 1048576 * B2R r).
  { rewrite V1. rewrite (Rmult_comm 1048576). apply round_generic; [auto with typeclass_instances|].
    change 1048576 with (bpow radix2 20). apply (mult_bpow_pos_exact_FLT radix2 (-149) 24); [|lia]. exact (generic_format_B2R 24 128 r). }
  assert (L : Rabs (1048576 * B2R r) < bp 128).
  { rewrite Rabs_pos_eq by lra. apply Rle_lt_trans with (1048576 * bpow radix2 100); [apply Rmult_le_compat_l; [lra|exact U]|].
    change 1048576 with (bpow radix2 20). rewrite <- bpow_plus. apply bpow_lt. lia. }
  destruct (fmul_fin r (f32_of_Z 1048576) F F1) as [G1 G2]; [rewrite RN; exact L|]. rewrite RN in G2.
  split; [exact G1|]. split; [exact G2|]. apply fltb_iff. split; [reflexivity|]. split; [now apply is_finite_not_nan|].
  rewrite (ext_finite (far_limit r)) by exact G1. change (ext f0) with 0. unfold far_limit. rewrite G2. lra.
Qed.

(** ** Beams in range are short *)
Lemma near_dist : forall d k (a b : list R), (d = 2 \/ d = 3)%nat -> length a = d -> length b = d -> 0 <= k -> (forall i, (i < d)%nat -> Rabs (nth i a 0 - nth i b 0) <= k) -> dist a b <= 2 * k.
Proof.
  intros d k a b Hd La Lb K H. unfold dist. apply Rle_trans with (sqrt ((2 * k) * (2 * k))); [apply sqrt_le_1_alt|rewrite sqrt_square; lra].
  assert (Q : forall x, Rabs x <= k -> x * x <= k * k) by (intros x X; apply Rabs_le_inv in X; nra).
  pose proof (H 0%nat ltac:(lia)) as H0. pose proof (H 1%nat ltac:(lia)) as H1. apply Q in H0, H1. destruct Hd as [-> | ->].
  - destruct a as [|a1 [|a2 [|]]]; try discriminate La. destruct b as [|b1 [|b2 [|]]]; try discriminate Lb. cbn [nth map2 fold_right] in *. nra.
  - pose proof (H 2%nat ltac:(lia)) as H2. apply Q in H2. destruct a as [|a1 [|a2 [|a3 [|]]]]; try discriminate La. destruct b as [|b1 [|b2 [|b3 [|]]]]; try discriminate Lb. cbn [nth map2 fold_right] in *. nra.
Qed.

Section Beam.
Context (d : nat) (o e b : point) (r : f32) (ks : cell) (O E : list R) (Hd : (d = 2 \/ d = 3)%nat) (Lo : length o = d) (Le : length e = d) (Lb : length b = d) (HS : ray_short r o e b).
Context (AC : Forall2 (at_cell r) ks b) (CO : off_by_cells (/ 128) (real r) (map real o) O) (CE : off_by_cells (/ 128) (real r) (map real e) E).
Context (BO : off_borders (/ 8) (world d) (real r) O) (BE : off_borders (/ 8) (world d) (real r) E) (NC : no_corner_near (/ 8) (world d) (real r) O E).
Context (RO : res_ok r).

Lemma beam_near : forall x u, length x = d -> 0 <= u <= 1 -> in_grown_cell (/ 8) (world d) (real r) x (seg O E u) -> dist (cell_centre (world d) (real r) x) O <= 2048 * real r.
Proof.
  intros x u Lx Hu G. pose proof (res_ok_pos r RO) as Pr. change (@B2R 24 128) with real in Pr.
  assert (LO : length O = d) by (pose proof (Forall2_length _ _ _ CO) as L; rewrite map_length in L; unfold point in *; congruence).
  assert (LE : length E = d) by (pose proof (Forall2_length _ _ _ CE) as L; rewrite map_length in L; unfold point in *; congruence).
  assert (LW : length (world d) = d) by apply repeat_length.
  replace (2048 * real r) with (2 * (1024 * real r)) by ring. apply (near_dist d); auto; [unfold cell_centre; rewrite ConverterProofs.map2_length; unfold cell in *; congruence|lra|].
  intros i Hi. destruct HS as (_ & _ & _ & _ & SH).
  pose proof (proj1 (Forall2_nth_iff _ f0 f0 o e ltac:(unfold point in *; congruence)) SH i ltac:(unfold point in *; lia)) as S. cbv beta in S.
  pose proof (off_nth d O E (world d) (real r) Hd LO LE LW _ _ _ i CO ltac:(rewrite map_length; unfold point in *; lia)) as A. pose proof (off_nth d O E (world d) (real r) Hd LO LE LW _ _ _ i CE ltac:(rewrite map_length; unfold point in *; lia)) as B.
  rewrite nth_real in A, B by (unfold point in *; lia).
  specialize (G i ltac:(unfold cell in *; lia)). rewrite (at_seg d) in G by assumption.
  unfold cell_centre. rewrite (nth_map2 _ x (world d) i 0%Z 0 0) by (unfold cell in *; lia).
  set (y := nth i (world d) 0 + IZR (nth i x 0%Z) * real r) in *.
  set (X := nth i O 0) in *. set (Y := nth i E 0) in *. apply Rabs_le_inv in S, A, B, G. change (@B2R 24 128) with real in *.
  assert (D : - (1023 * real r + / 64 * real r) <= Y - X <= 1023 * real r + / 64 * real r) by lra.
  assert (U : Rabs (u * (Y - X)) <= 1023 * real r + / 64 * real r).
  { rewrite Rabs_mult, (Rabs_pos_eq u) by lra. apply Rabs_le in D. apply Rle_trans with (1 * Rabs (Y - X)); [apply Rmult_le_compat_r; [apply Rabs_pos|lra]|lra]. }
  apply Rabs_le_inv in U. apply Rabs_le. lra.
Qed.

Lemma beam_clear : clear_segment (real (far_limit r)) (world d) (real r) O E.
Proof.
  destruct (far_value r RO) as (_ & -> & _). pose proof (res_ok_pos r RO) as Pr. change (@B2R 24 128) with real in *.
  split; [exact BO|]. split; [exact BE|]. split; [exact NC|]. intros x u Lx Hu G. left.
  assert (LO : length O = d) by (pose proof (Forall2_length _ _ _ CO) as L; rewrite map_length in L; unfold point in *; congruence).
  pose proof (beam_near x u ltac:(unfold cell in *; congruence) Hu G). lra.
Qed.
Lemma beam_whole : beam_arrives (real (far_limit r)) (world d) (real r) O E.
Proof.
  destruct (far_value r RO) as (_ & -> & _). pose proof (res_ok_pos r RO) as Pr. change (@B2R 24 128) with real in *.
  intros x ((Lx & u & Hu & G) & _ & _ & F).
  assert (LO : length O = d) by (pose proof (Forall2_length _ _ _ CO) as L; rewrite map_length in L; unfold point in *; congruence).
  assert (G' : in_grown_cell (/ 8) (world d) (real r) x (seg O E u)) by (intros i Hi; specialize (G i Hi); lra).
  pose proof (beam_near x u ltac:(unfold cell in *; congruence) Hu G'). lra.
Qed.

(** The ray is that of the limit. *)
Lemma beam_same : forall fuel m, fltb f0 m = false -> (3072 <= fuel)%nat -> cast_ray F32A fuel o e b r m = cast_ray F32A fuel o e b r (far_limit r).
Proof.
  intros fuel m Hm F. destruct (far_value r RO) as (Ff & Vf & Pf).
  destruct (world_beam d o e b r (far_limit r) ks O E Hd Lo Le Lb HS AC CO CE beam_clear) as (CR & _ & _ & _ & AR).
  pose proof (proj2 AR beam_whole) as A. destruct (beam d o e b r Hd Lo Le Lb fuel (far_limit r) CR Pf Ff ltac:(rewrite Vf; apply Rle_refl) F) as (rc & oe & C & _ & K).
  assert (Eo : oe = Some (nearest_cell (map real b) (real r) (map real e))) by (now apply K). subst oe.
  destruct CR as (_ & O1 & O2 & N & _).
  assert (FU : (manhattan (nearest_cell (map real b) (real r) (map real o)) (nearest_cell (map real b) (real r) (map real e)) <= Z.of_nat fuel)%Z).
  { destruct (same_ray d o e b r Hd Lo Le Lb HS O1 O2 N) as (E1 & E2 & _). rewrite E1, E2. pose proof (short_steps d Hd o e b r Lo Le Lb HS). lia. }
  destruct (crossed d o e b r Hd Lo Le Lb HS O1 O2 N fuel m Hm FU) as (path & C0 & _).
  destruct (cut_cast F32A fuel o e b r (far_limit r) m path _ Hm C0) as [K1 K2]. set (far := too_far F32A _) in K1, K2.
  rewrite C0. destruct (first_far far (tl path)) as [AF|(pre & x0 & post & EP & AF & X0)]; [symmetry; exact (K1 AF)|exfalso].
  destruct path as [|z path]; [destruct pre; discriminate EP|]. cbn [tl] in EP. subst path.
  specialize (K2 (z :: pre) x0 post eq_refl ltac:(discriminate) AF X0). congruence.
Qed.
End Beam.

Lemma rays_same : forall fuel o cloud bd r m m', (forall p, In p (pc_points cloud) -> cast_ray F32A fuel o p (bmin bd) r m = cast_ray F32A fuel o p (bmin bd) r m') ->
  cast_rays fuel o cloud bd r m = cast_rays fuel o cloud bd r m'.
Proof.
  intros fuel o cloud bd r m m' H. rewrite !cast_rays_unfold. f_equal. generalize (([], []) : cset * cset). induction (pc_points cloud) as [|p l IH]; intros acc; [reflexivity|].
  cbn [ofold]. unfold ray_step at 1 3. rewrite (H p (or_introl eq_refl)). destruct (cast_ray F32A fuel o p (bmin bd) r m') as [x| |]; [|reflexivity..]. cbn [obind]. apply IH. intros q Hq. apply H. now right.
Qed.

(** ** One scan *)
Lemma full_scan : forall d r t fuel of oo m g s o cloud, map_range d r t -> reachable d r t g -> full_records d r g s o cloud -> fltb f0 (max_range m) = false -> (3072 <= fuel)%nat ->
  records d (far_limit r) r g s o cloud /\ all_arrive d (real (far_limit r)) (real r) s /\
  integrate_point_cloud fuel of oo m g o cloud = integrate_point_cloud fuel of oo (with_limit m (far_limit r)) g o cloud.
Proof.
  intros d r t fuel of oo m g s o cloud MR Rg (Lo & RQ & Co & H) Hm F. pose proof (proj1 (proj2 MR)) as RO.
  destruct (wf_of_reachable d r t g MR Rg) as [cb W].
  destruct (expand_step d r t g cb (pc_bounds cloud) f0 MR W RQ) as (db & g1 & cb' & u & _ & E1 & W1 & _). pose proof (wf_covers _ _ _ _ _ MR W1) as C1.
  specialize (H g1 E1). set (b := bmin (gm_bounds g1)) in *. pose proof (cc_min _ _ _ _ _ C1) as AC. fold b in AC. destruct (cc_ordered _ _ _ _ _ C1) as (L1 & L2).
  assert (Lb : length b = d) by (pose proof (Forall2_length _ _ _ AC) as L; unfold cell, point in *; congruence).
  split; [|split].
  - split; [exact Lo|]. split; [exact RQ|]. split; [exact Co|]. intros g2 E2. assert (g2 = g1) by congruence. subst g2. fold b.
    revert H. apply Forall2_imp. intros q p (Lp & HS & Cp & BO & BE & NC). split; [exact Lp|]. split; [exact HS|]. split; [exact Cp|].
    exact (beam_clear d o p b r (fst s) q (proj1 MR) Lo Lp Lb HS Co Cp BO BE NC RO).
  - intros q Iq. destruct (Forall2_left _ _ _ _ _ q H Iq) as (p & _ & Lp & HS & Cp & _). exact (beam_whole d o p b r (fst s) q (proj1 MR) Lo Lp Lb HS Co Cp RO).
  - unfold integrate_point_cloud. change default_cell_value with f0. rewrite E1. cbn [obind].
    assert (RR : gm_resolution g1 = r) by exact (cc_resolution _ _ _ _ _ C1). rewrite RR.
    rewrite (rays_same fuel o cloud (gm_bounds g1) r (max_range m) (max_range (with_limit m (far_limit r)))); [reflexivity|].
    intros p Hp. destruct (Forall2_right _ _ _ _ _ p H Hp) as (q & _ & Lp & HS & Cp & BO & BE & NC). fold b. cbn [max_range with_limit].
    exact (beam_same d o p b r (cmin cb') (fst s) q (proj1 MR) Lo Lp Lb HS AC Co Cp BO BE NC RO fuel (max_range m) Hm F).
Qed.

Lemma hits_full : forall d M r s w, all_arrive d M r s -> (scan_hits d M r s w <-> full_hits d r s w).
Proof. intros d M r s w A. split; [intros (q & I & E & _); now exists q|]. intros (q & I & E). exists q. auto. Qed.
Lemma passes_full : forall d M r s w, all_arrive d M r s -> (scan_passes d M r s w <-> full_passes d r s w).
Proof.
  intros d M r s w A. split; [intros (q & I & T & N & _); now exists q|]. intros (q & I & T & N). exists q. split; [exact I|]. split; [exact T|]. split; [exact N|].
  intros y Y. now elim (A q I y).
Qed.
Lemma verdict_full : forall d M r w s v, all_arrive d M r s -> (verdict d M r w s v <-> full_verdict d r w s v).
Proof. intros d M r w s v A. destruct v as [[|]|]; cbn [verdict full_verdict]; rewrite ?(hits_full d M r s w A), ?(passes_full d M r s w A); reflexivity. Qed.
Lemma verdicts_full : forall d M r w L vs, Forall (all_arrive d M r) L -> (Forall2 (verdict d M r w) L vs <-> Forall2 (full_verdict d r w) L vs).
Proof.
  intros d M r w L. induction L as [|s L IH]; intros vs A; [split; intro H; inversion H; constructor|]. apply Forall_cons_iff in A. destruct A as [A1 A2].
  split; intro H; inversion H as [|? v ? vs' V H']; subst; constructor; try (now apply (verdict_full d M r w s v A1)); now apply (IH vs' A2).
Qed.
Lemma sees_full : forall d M r wall s, full_sees d r wall s -> sees d M r wall s.
Proof. intros d M r wall s H q Iq. destruct (H q Iq) as [W N]. split; [|auto]. intros w (T & Nw & _). now apply N. Qed.

(** ** Recordings *)
Lemma full_limited : forall d r t m o L, map_range d r t -> fltb f0 (max_range m) = false -> full_recorded d r t m o L ->
  let m' := with_limit m (far_limit r) in om_model o = m /\ recorded d r t m' (mkOcc (om_grid o) m') L /\ Forall (all_arrive d (real (far_limit r)) (real r)) L.
Proof.
  intros d r t m o L MR Hm H m'.
  induction H as [o E|o L s fuel of oo origin cloud o' H (Em & IH & A) Hf Ho OK F E|o L x H (Em & IH & A)|o L H (Em & IH & A)].
  - unfold om_new in E. destruct (gm_new _ _ _ _) as [g| |] eqn:G; try discriminate. cbn [obind] in E. injection E as <-. split; [reflexivity|]. split; [|constructor].
    apply recorded_new. unfold om_new. rewrite G. reflexivity.
  - destruct (recorded_facts _ _ _ _ _ _ IH) as [_ Rg]. cbn [om_grid] in Rg.
    destruct (full_scan d r t fuel of oo m (om_grid o) s origin cloud MR Rg OK Hm F) as (RC & AR & EQ). fold m' in EQ.
    unfold om_integrate in E. rewrite Em, EQ in E. destruct (integrate_point_cloud _ _ _ m' _ _ _) as [g'| |] eqn:G; try discriminate. cbn [obind] in E. injection E as <-. cbn [om_grid om_model].
    split; [reflexivity|]. split; [|apply Forall_app; split; [exact A|constructor; [exact AR|constructor]]].
    apply (recorded_next _ _ _ _ _ L s fuel of oo origin cloud _ IH Hf Ho RC F). unfold om_integrate. cbn [om_grid om_model]. rewrite G. reflexivity.
  - split; [exact Em|]. split; [|exact A]. exact (recorded_track _ _ _ _ _ L x IH).
  - split; [exact Em|]. split; [|exact A]. exact (recorded_clear _ _ _ _ _ L IH).
Qed.

Section Full.
Context (d : nat) (r : f32) (t : Z) (m : lidar) (MR : map_range d r t) (Hm : fltb f0 (max_range m) = false).
Let m' := with_limit m (far_limit r).
Lemma far_ok : fltb f0 (max_range m') = true /\ finite (max_range m') /\ real (max_range m') <= 1048576 * real r.
Proof. destruct (far_value r (proj1 (proj2 MR))) as (F & V & P). split; [exact P|]. split; [exact F|]. cbn [m' max_range with_limit]. rewrite V. apply Rle_refl. Qed.

Lemma full_values : forall o L, full_recorded d r t m o L -> exists cb, covers_cells d r t (om_grid o) cb /\
  forall w vs, length w = d -> Forall2 (full_verdict d (real r) w) L vs -> world_value (om_grid o) cb f0 w (fold_left (observe m) vs f0) /\ (Exists (fun v => v <> None) vs -> in_box cb w).
Proof.
  intros o L H. destruct (full_limited d r t m o L MR Hm H) as (_ & R & A). destruct far_ok as (P & F & B).
  destruct (recorded_values d r t m' _ L MR P F B R) as (cb & C & V). exists cb. split; [exact C|]. intros w vs Lw Vs. apply (V w vs Lw). now apply (verdicts_full d (real (far_limit r))).
Qed.
End Full.

Lemma full_verdict_exists : forall d r w L, Forall (all_arrive d (real (far_limit r)) (real r)) L -> exists vs, Forall2 (full_verdict d (real r) w) L vs /\ forall vs', Forall2 (full_verdict d (real r) w) L vs' -> vs' = vs.
Proof.
  intros d r w L A. destruct (verdicts_exist d (real (far_limit r)) (real r) w L) as [vs Vs]. exists vs. split; [now apply (verdicts_full d (real (far_limit r)) (real r) w L vs A)|].
  intros vs' V'. apply (verdicts_full d (real (far_limit r)) (real r) w L vs' A) in V'. exact (verdicts_unique _ _ _ _ _ _ _ Vs V').
Qed.
Lemma full_cells : forall d r t m o L, map_range d r t -> fltb f0 (max_range m) = false -> full_recorded d r t m o L -> exists cb, covers_cells d r t (om_grid o) cb /\
  forall w, length w = d -> exists vs, Forall2 (full_verdict d (real r) w) L vs /\ (forall vs', Forall2 (full_verdict d (real r) w) L vs' -> vs' = vs) /\
    world_value (om_grid o) cb f0 w (fold_left (observe m) vs f0) /\ (Exists (fun v => v <> None) vs -> in_box cb w).
Proof.
  intros d r t m o L MR Hm H. destruct (full_values d r t m MR Hm o L H) as (cb & C & V). exists cb. split; [exact C|]. intros w Lw.
  destruct (full_limited d r t m o L MR Hm H) as (_ & _ & A). destruct (full_verdict_exists d r w L A) as (vs & Vs & U). exists vs. split; [exact Vs|]. split; [exact U|now apply V].
Qed.
Lemma full_same : forall d r t t' m o o' L, map_range d r t -> map_range d r t' -> fltb f0 (max_range m) = false ->
  full_recorded d r t m o L -> full_recorded d r t' m o' L -> exists cb cb', covers_cells d r t (om_grid o) cb /\ covers_cells d r t' (om_grid o') cb' /\
    forall w, length w = d -> exists v, world_value (om_grid o) cb f0 w v /\ world_value (om_grid o') cb' f0 w v.
Proof.
  intros d r t t' m o o' L MR MR' Hm H H'. destruct (full_values d r t m MR Hm o L H) as (cb & C & V). destruct (full_values d r t' m MR' Hm o' L H') as (cb' & C' & V').
  exists cb, cb'. split; [exact C|]. split; [exact C'|]. intros w Lw. destruct (full_limited d r t m o L MR Hm H) as (_ & _ & A). destruct (full_verdict_exists d r w L A) as (vs & Vs & _).
  exists (fold_left (observe m) vs f0). split; [now apply V|now apply V'].
Qed.

Lemma full_continues : forall d r t m o L s fuel of oo origin cloud, map_range d r t -> fltb f0 (max_range m) = false ->
  full_recorded d r t m o L -> is_order of -> is_order oo -> full_records d r (om_grid o) s origin cloud -> (3072 <= fuel)%nat ->
  exists g1 cb, gm_expand_bounds (om_grid o) (pc_bounds cloud) f0 = Ret g1 /\ covers_cells d r t g1 cb /\
    ((exists o', om_integrate fuel of oo o origin cloud = Ret o') <-> (forall w, full_hits d (real r) s w \/ full_passes d (real r) s w -> in_box cb w)).
Proof.
  intros d r t m o L s fuel of oo origin cloud MR Hm H Hf Ho OK F. destruct (full_limited d r t m o L MR Hm H) as (Em & R & _). destruct (far_ok d r t m MR) as (P & Fm & B).
  destruct (recorded_facts _ _ _ _ _ _ R) as [_ Rg]. cbn [om_grid] in Rg. destruct (full_scan d r t fuel of oo m (om_grid o) s origin cloud MR Rg OK Hm F) as (RC & AR & EQ).
  destruct (recorded_continues d r t _ _ L s fuel of oo origin cloud MR P Fm B R Hf Ho RC F) as (g1 & cb & E1 & C & T). exists g1, cb. split; [exact E1|]. split; [exact C|].
  cbn [max_range with_limit] in T. assert (Q : (exists o', om_integrate fuel of oo o origin cloud = Ret o') <-> (exists o', om_integrate fuel of oo (mkOcc (om_grid o) (with_limit m (far_limit r))) origin cloud = Ret o')).
  { unfold om_integrate. cbn [om_grid om_model]. rewrite Em, EQ. generalize (integrate_point_cloud fuel of oo (with_limit m (far_limit r)) (om_grid o) origin cloud). intros [g'| |]; cbn [obind]; split; intros [x X]; try discriminate X; eexists; reflexivity. }
  rewrite Q, T. split; intros K w W; apply K; [rewrite (hits_full d (real (far_limit r)) (real r) s w AR), (passes_full d (real (far_limit r)) (real r) s w AR)|rewrite <- (hits_full d (real (far_limit r)) (real r) s w AR), <- (passes_full d (real (far_limit r)) (real r) s w AR)]; exact W.
Qed.
Lemma full_ends : forall d r t m o L s fuel of oo origin cloud, map_range d r t -> fltb f0 (max_range m) = false ->
  full_recorded d r t m o L -> is_order of -> is_order oo -> full_records d r (om_grid o) s origin cloud -> (3072 <= fuel)%nat ->
  forall g1 cb, gm_expand_bounds (om_grid o) (pc_bounds cloud) f0 = Ret g1 -> covers_cells d r t g1 cb ->
  in_box cb (nearest_cell (world d) (real r) (fst s)) -> (forall q, In q (snd s) -> in_box cb (nearest_cell (world d) (real r) q)) ->
  exists o', om_integrate fuel of oo o origin cloud = Ret o'.
Proof.
  intros d r t m o L s fuel of oo origin cloud MR Hm H Hf Ho OK F g1 cb E1 C Q1 Q2. destruct (full_limited d r t m o L MR Hm H) as (Em & R & _). destruct (far_ok d r t m MR) as (P & Fm & B).
  destruct (recorded_facts _ _ _ _ _ _ R) as [_ Rg]. cbn [om_grid] in Rg. destruct (full_scan d r t fuel of oo m (om_grid o) s origin cloud MR Rg OK Hm F) as (RC & AR & EQ).
  destruct (recorded_ends d r t _ _ L s fuel of oo origin cloud MR P Fm B R Hf Ho RC F g1 cb E1 C Q1 Q2) as [o' E']. unfold om_integrate in *. cbn [om_grid om_model] in E'. rewrite Em, EQ.
  revert E'. generalize (integrate_point_cloud fuel of oo (with_limit m (far_limit r)) (om_grid o) origin cloud). intros [g'| |] E'; cbn [obind] in *; try discriminate E'. eexists. reflexivity.
Qed.

Lemma full_occupied : forall d r t m o L wall, map_range d r t -> fltb f0 (max_range m) = false ->
  signs_ok m -> fle f0 (occupied_threshold_logodds m) -> fltb (occupied_threshold_logodds m) (evidence m f0 true) = true ->
  full_recorded d r t m o L -> Forall (full_sees d (real r) wall) L -> exists cb, covers_cells d r t (om_grid o) cb /\
    forall w, length w = d ->
      ((exists s, In s L /\ full_hits d (real r) s w) -> wall w /\ in_box cb w) /\
      (in_box cb w -> exists b, om_occupied o (map2 Z.sub w (cmin cb)) = Ret b /\ (b = true <-> exists s, In s L /\ full_hits d (real r) s w)).
Proof.
  intros d r t m o L wall MR Hm SO T0 T1 H SE. destruct (full_limited d r t m o L MR Hm H) as (Em & R & A). destruct (far_ok d r t m MR) as (P & Fm & B).
  assert (SE' : Forall (sees d (real (far_limit r)) (real r) wall) L) by (revert SE; apply Forall_impl; intros s S; now apply sees_full).
  destruct (walled_occupied d r t (with_limit m (far_limit r)) _ L wall MR P Fm B SO T0 T1 R SE') as (cb & C & K). exists cb. split; [exact C|]. cbn [max_range with_limit om_grid] in K.
  assert (Q : forall w, (exists s, In s L /\ scan_hits d (real (far_limit r)) (real r) s w) <-> (exists s, In s L /\ full_hits d (real r) s w)).
  { intro w. rewrite Forall_forall in A. split; intros (s & I & X); exists s; (split; [exact I|]); apply (hits_full d (real (far_limit r)) (real r) s w (A s I)); exact X. }
  intros w Lw. destruct (K w Lw) as [K1 K2]. split; [intro X; now apply K1, Q|]. intro IB. destruct (K2 IB) as (b & Eb & X). exists b. split; [|rewrite X; apply Q].
  unfold om_occupied in *. rewrite Em. exact Eb.
Qed.

Lemma full_order : forall d r t t' m o o' L L' wall, map_range d r t -> map_range d r t' -> fltb f0 (max_range m) = false ->
  full_recorded d r t m o L -> full_recorded d r t' m o' L' -> Permutation.Permutation L L' -> Forall (full_sees d (real r) wall) L ->
  exists cb cb', covers_cells d r t (om_grid o) cb /\ covers_cells d r t' (om_grid o') cb' /\
    forall w, length w = d -> exists v, world_value (om_grid o) cb f0 w v /\ world_value (om_grid o') cb' f0 w v.
Proof.
  intros d r t t' m o o' L L' wall MR MR' Hm H H' PM SE. destruct (full_limited d r t m o L MR Hm H) as (_ & R & A). destruct (full_limited d r t' m o' L' MR' Hm H') as (_ & R' & _). destruct (far_ok d r t m MR) as (P & Fm & B).
  assert (SE' : Forall (sees d (real (far_limit r)) (real r) wall) L) by (revert SE; apply Forall_impl; intros s S; now apply sees_full).
  exact (walled_order d r t t' (with_limit m (far_limit r)) _ _ L L' wall MR MR' P Fm B R R' PM SE').
Qed.

Lemma full_changed : forall d r t m o L0 L1 wall, map_range d r t -> fltb f0 (max_range m) = false -> signs_ok m -> moderate_model m ->
  full_recorded d r t m o (L0 ++ L1) -> Forall (full_sees d (real r) wall) L1 ->
  let thr := real (occupied_threshold_logodds m) in
  exists cb, covers_cells d r t (om_grid o) cb /\ forall w vs, length w = d -> Forall2 (full_verdict d (real r) w) L1 vs ->
    (~ wall w -> (1 <= seen false vs)%nat -> counts m (- real (miss_logodds m)) -> real (min_logodds m) <= thr ->
     real (max_logodds m) - thr <= INR (seen false vs) * (1023 / 1024 * - real (miss_logodds m)) -> in_box cb w /\ om_occupied o (map2 Z.sub w (cmin cb)) = Ret false) /\
    (wall w -> (1 <= seen true vs)%nat -> counts m (real (hit_logodds m)) -> thr < real (max_logodds m) ->
     thr - real (min_logodds m) < INR (seen true vs) * (1023 / 1024 * real (hit_logodds m)) -> in_box cb w /\ om_occupied o (map2 Z.sub w (cmin cb)) = Ret true).
Proof.
  intros d r t m o L0 L1 wall MR Hm SO MO H SE thr. destruct (full_limited d r t m o _ MR Hm H) as (Em & R & A). destruct (far_ok d r t m MR) as (P & Fm & B).
  apply Forall_app in A. destruct A as [_ A].
  assert (SE' : Forall (sees d (real (far_limit r)) (real r) wall) L1) by (revert SE; apply Forall_impl; intros s S; now apply sees_full).
  destruct (walled_changed d r t (with_limit m (far_limit r)) _ L0 L1 wall MR P Fm B SO MO R SE') as (cb & C & K). exists cb. split; [exact C|].
  intros w vs Lw V. apply (verdicts_full d (real (far_limit r)) (real r) w L1 vs A) in V. specialize (K w vs Lw V). unfold om_occupied in *. rewrite Em. exact K.
Qed.

(** A limit that no beam reaches. *)
Lemma full_limit : forall d r t t' m o o' L x, map_range d r t -> map_range d r t' -> fltb f0 (max_range m) = true -> finite (max_range m) -> real (max_range m) <= 1048576 * real r -> fltb f0 x = false ->
  recorded d r t m o L -> Forall (all_arrive d (real (max_range m)) (real r)) L -> full_recorded d r t' (with_limit m x) o' L ->
  exists cb cb', covers_cells d r t (om_grid o) cb /\ covers_cells d r t' (om_grid o') cb' /\
    forall w, length w = d -> exists v, world_value (om_grid o) cb f0 w v /\ world_value (om_grid o') cb' f0 w v.
Proof.
  intros d r t t' m o o' L x MR MR' Pm Fm Bm Hx H A H'. destruct (recorded_values d r t m o L MR Pm Fm Bm H) as (cb & C & V). destruct (full_values d r t' (with_limit m x) MR' Hx o' L H') as (cb' & C' & V').
  exists cb, cb'. split; [exact C|]. split; [exact C'|]. intros w Lw. destruct (verdicts_exist d (real (max_range m)) (real r) w L) as [vs Vs]. exists (fold_left (observe m) vs f0).
  split; [now apply V|]. apply (V' w vs Lw). now apply (verdicts_full d (real (max_range m))).
Qed.
