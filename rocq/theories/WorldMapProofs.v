(** C96: recordings and the world they were taken in. *)
From Coq Require Import ZArith List Bool Reals Lra Lia Classical.
From Flocq Require Import Core BinarySingleNaN.
From Verif Require Import Base F32 FloatFacts Arith Geom NdArray GridMap RayCaster NoiseModel Spec SpecMap SpecNoise SpecBack SpecMeet SpecNear SpecWorld ConverterProofs GeomProofs NdProofs
  MapProofs ExpandProofs RayProofs CastProofs RaysProofs NoiseProofs ScanProofs MeetProofs MeetMapProofs MoveProofs NearProofs NearMapProofs WorldProofs RayReach.
Open Scope R_scope.

(** ** The lower corner of the map *)
Lemma corner_axis : forall (r x : f32) j, 0 < real r -> within_cells (2 ^ 15) r x -> at_cell r j x -> Rabs (real x - IZR j * real r) <= / 256 * real r.
Proof.
  intros r x j Pr [_ Wb] [_ A]. change (IZR (2 ^ 15)) with 32768 in Wb. change (bpow radix2 (-24)) with (/ 16777216) in A.
  assert (J0 : Rabs (IZR j * real r) = Rabs (IZR j) * real r) by (rewrite Rabs_mult, (Rabs_pos_eq (real r)); lra).
  assert (J1 : Rabs (IZR j * real r) <= Rabs (real x) + Rabs (real x - IZR j * real r)).
  { replace (IZR j * real r) with (real x - (real x - IZR j * real r)) at 1 by ring. eapply Rle_trans; [apply Rabs_triang|]. rewrite Rabs_Ropp. lra. }
  lra.
Qed.

Definition corner_off (r : R) (ks : cell) (B : list R) : list R := map2 (fun x z => x - IZR z * r) B ks.
Lemma corner_off_nth : forall r ks B d i, length ks = d -> length B = d -> (i < d)%nat -> nth i (corner_off r ks B) 0 = nth i B 0 - IZR (nth i ks 0%Z) * r.
Proof. intros r ks B d i L1 L2 Hi. unfold corner_off. rewrite (nth_map2 _ B ks i 0 0%Z 0) by (unfold cell in *; lia). reflexivity. Qed.

Lemma off_moved : forall r D d p q, 0 < r -> length D = d -> length p = d -> (forall i, (i < d)%nat -> Rabs (nth i D 0) <= / 256 * r) ->
  off_by_cells (/ 128) r p q -> off_by_cells (/ 64) r p (move D q).
Proof.
  intros r D d p q Pr LD Lp HD H. unfold off_by_cells in *. pose proof (Forall2_length _ _ _ H) as Lq.
  assert (LM : length (move D q) = d) by (apply move_length; congruence).
  apply (proj2 (Forall2_nth_iff _ 0 0 p (move D q) ltac:(congruence))). intros i Hi.
  pose proof (proj1 (Forall2_nth_iff _ 0 0 p q Lq) H i Hi) as A. cbv beta in A. rewrite (move_nth d (repeat 0%Z d) (repeat 0 d) D (repeat_length _ _) (repeat_length _ _) LD q i) by lia. specialize (HD i ltac:(lia)).
  apply Rabs_le_inv in A. apply Rabs_le_inv in HD. apply Rabs_le. lra.
Qed.

(** ** One beam *)
Lemma world_beam : forall d (o e b : point) (r m : f32) (ks : cell) (O E : list R), (d = 2 \/ d = 3)%nat -> length o = d -> length e = d -> length b = d -> ray_short r o e b ->
  Forall2 (at_cell r) ks b ->
  off_by_cells (/ 128) (real r) (map real o) O -> off_by_cells (/ 128) (real r) (map real e) E -> clear_segment (real m) (world d) (real r) O E ->
  let B := map real b in clear_ray m r b o e /\
  nearest_cell B (real r) (map real e) = map2 Z.sub (nearest_cell (world d) (real r) E) ks /\ length (nearest_cell (world d) (real r) E) = d /\
  (forall x, length x = d -> (beam_passes (real m) B (real r) (map real o) (map real e) x <-> beam_passes (real m) (world d) (real r) O E (map2 Z.add x ks))) /\
  (beam_arrives (real m) B (real r) (map real o) (map real e) <-> beam_arrives (real m) (world d) (real r) O E).
Proof.
  intros d o e b r m ks O E Hd Lo Le Lb HS AC CO CE CS B. pose proof HS as ((_ & R30 & _) & _ & _ & WB & _).
  assert (Pr : 0 < real r) by (pose proof (bpow_gt_0 radix2 (-30)); lra).
  pose proof (Forall2_length _ _ _ AC) as LK. assert (LK' : length ks = d) by (unfold cell, point in *; congruence).
  assert (LB : length B = d) by (unfold B; now rewrite map_length).
  set (D := corner_off (real r) ks B). assert (LD : length D = d) by (unfold D, corner_off; rewrite ConverterProofs.map2_length; unfold cell in *; congruence).
  assert (HD : forall i, (i < d)%nat -> Rabs (nth i D 0) <= / 256 * real r).
  { intros i Hi. unfold D. rewrite (corner_off_nth _ _ _ d) by assumption. unfold B. rewrite nth_real by (unfold point in *; lia).
    apply corner_axis; [exact Pr| |].
    - rewrite Forall_forall in WB. apply WB, nth_In. unfold point in *; lia.
    - exact (proj1 (Forall2_nth_iff _ 0%Z f0 ks b LK) AC i ltac:(unfold cell in *; lia)). }
  assert (HB : forall i, (i < d)%nat -> nth i B 0 = IZR (nth i ks 0%Z) * real r + nth i D 0).
  { intros i Hi. unfold D. rewrite (corner_off_nth _ _ _ d) by assumption. ring. }
  assert (LO : length O = d) by (pose proof (Forall2_length _ _ _ CO) as L; rewrite map_length in L; unfold point in *; congruence).
  assert (LE : length E = d) by (pose proof (Forall2_length _ _ _ CE) as L; rewrite map_length in L; unfold point in *; congruence).
  assert (CO' : off_by_cells (/ 64) (real r) (map real o) (move D O)) by (apply (off_moved _ _ d); auto; now rewrite map_length).
  assert (CE' : off_by_cells (/ 64) (real r) (map real e) (move D E)) by (apply (off_moved _ _ d); auto; now rewrite map_length).
  assert (CS' : clear_segment (real m) B (real r) (move D O) (move D E)) by (apply (clear_move d (real r) ks B D); auto).
  destruct (near_clear d o e b r m (move D O) (move D E) Hd Lo Le Lb HS CO' CE' CS') as (N1 & N2 & N3 & N4). fold B in N2, N3, N4.
  split; [exact N1|]. split; [|split; [|split]].
  - rewrite N2. apply (near_e d (real r) ks B D) with (o := O) (M := real m); auto.
  - unfold nearest_cell. rewrite ConverterProofs.map2_length; rewrite ?world_length; congruence.
  - intros x Lx. rewrite N3. apply (passes_move d (real r) ks B D); auto.
  - rewrite N4. apply (arrives_move d (real r) ks B D); auto.
Qed.

(** ** One scan *)
Lemma world_scan : forall d r t fuel of oo m g s o cloud, map_range d r t -> reachable d r t g -> is_order of -> is_order oo ->
  records d (max_range m) r g s o cloud -> (3072 <= fuel)%nat ->
  fltb f0 (max_range m) = true -> finite (max_range m) -> real (max_range m) <= 1048576 * real r ->
  let M := real (max_range m) in
  exists g1 cb cb', gm_expand_bounds g (pc_bounds cloud) f0 = Ret g1 /\ covers_cells d r t g cb /\ covers_cells d r t g1 cb' /\ (forall w, in_box cb w -> in_box cb' w) /\
    ((exists g', integrate_point_cloud fuel of oo m g o cloud = Ret g') <-> (forall w, scan_hits d M (real r) s w \/ scan_passes d M (real r) s w -> in_box cb' w)) /\
    forall g', integrate_point_cloud fuel of oo m g o cloud = Ret g' -> covers_cells d r t g' cb' /\
      forall w v old, length w = d -> verdict d M (real r) w s v -> world_value g cb f0 w old ->
        world_value g' cb' f0 w (observe m old v) /\ (v <> None -> in_box cb' w).
Proof.
  intros d r t fuel of oo m g s o cloud MR Rg Hf Ho (Lo & RQ & Co & H) F Pm Fm Bm M.
  destruct (wf_of_reachable d r t g MR Rg) as [cb W]. pose proof (wf_covers _ _ _ _ _ MR W) as C.
  destruct (expand_step d r t g cb (pc_bounds cloud) f0 MR W RQ) as (db & g1 & cb' & u & _ & E1 & W1 & _ & _ & _ & _ & _ & _ & _ & _ & KEEP & _). pose proof (wf_covers _ _ _ _ _ MR W1) as C1.
  specialize (H g1 E1). set (b := bmin (gm_bounds g1)) in *. set (ks := cmin cb') in *.
  pose proof (cc_min _ _ _ _ _ C1) as AC. fold b ks in AC. destruct (cc_ordered _ _ _ _ _ C1) as (L1 & L2). fold ks in L1.
  assert (Lk : length ks = d) by exact L1.
  assert (Lb : length b = d) by (pose proof (Forall2_length _ _ _ AC) as L; unfold cell, point in *; congruence).
  assert (L12 : length (cmin cb') = length (cmax cb')) by (fold ks; unfold cell in *; destruct L2; congruence).
  set (B := map real b).
  assert (K : Forall2 (fun q p => length p = d /\ length q = d /\ clear_ray (max_range m) r b o p /\
    nearest_cell B (real r) (map real p) = map2 Z.sub (nearest_cell (world d) (real r) q) ks /\ length (nearest_cell (world d) (real r) q) = d /\
    (forall x, length x = d -> (beam_passes M B (real r) (map real o) (map real p) x <-> beam_passes M (world d) (real r) (fst s) q (map2 Z.add x ks))) /\
    (beam_arrives M B (real r) (map real o) (map real p) <-> beam_arrives M (world d) (real r) (fst s) q)) (snd s) (pc_points cloud)).
  { revert H. apply Forall2_imp. intros q p (Lp & HS & Cp & CS). split; [exact Lp|].
    split; [pose proof (Forall2_length _ _ _ Cp) as L; rewrite map_length in L; unfold point in *; congruence|].
    exact (world_beam d o p b r (max_range m) ks (fst s) q (proj1 MR) Lo Lp Lb HS AC Co Cp CS). }
  assert (LO : length (fst s) = d) by (pose proof (Forall2_length _ _ _ Co) as L; rewrite map_length in L; unfold point in *; congruence).
  assert (UD : forall w : cell, length w = d -> map2 Z.add (map2 Z.sub w ks) ks = w) by (intros w Lw; exact (up_down d ks (repeat 0 d) (repeat 0 d) Lk (repeat_length _ _) (repeat_length _ _) w Lw)).
  assert (DU : forall w : cell, length w = d -> map2 Z.sub (map2 Z.add w ks) ks = w) by (intros w Lw; exact (down_up d ks (repeat 0 d) (repeat 0 d) Lk (repeat_length _ _) (repeat_length _ _) w Lw)).
  assert (LS : forall w : cell, length w = d -> length (map2 Z.sub w ks) = d) by (intros w Lw; rewrite ConverterProofs.map2_length; unfold cell in *; congruence).
  assert (LA : forall w : cell, length w = d -> length (map2 Z.add w ks) = d) by (intros w Lw; rewrite ConverterProofs.map2_length; unfold cell in *; congruence).
  assert (HL : forall w, scan_hits d M (real r) s w \/ scan_passes d M (real r) s w -> length w = d).
  { intros w [(q & Iq & -> & _)|(q & Iq & (Mw & _) & _)].
    - destruct (Forall2_left _ _ _ _ _ q K Iq) as (p & _ & _ & _ & _ & _ & L & _). exact L.
    - rewrite Mw. exact LO. }
  assert (HW : forall c w, length w = d -> c = map2 Z.sub w ks ->
    ((exists p, In p (pc_points cloud) /\ c = nearest_cell B (real r) (map real p) /\ beam_arrives M B (real r) (map real o) (map real p)) <-> scan_hits d M (real r) s w)).
  { intros c w Lw ->. split.
    - intros (p & Hp & Ec & A). destruct (Forall2_right _ _ _ _ _ p K Hp) as (q & Hq & _ & _ & _ & N & LN & _ & A'). exists q. split; [exact Hq|].
      split; [|now apply A']. rewrite N in Ec. apply (f_equal (fun x => map2 Z.add x ks)) in Ec. rewrite !UD in Ec by assumption. exact Ec.
    - intros (q & Hq & -> & A). destruct (Forall2_left _ _ _ _ _ q K Hq) as (p & Hp & _ & _ & _ & N & _ & _ & A'). exists p. split; [exact Hp|]. split; [symmetry; exact N|now apply A']. }
  assert (HP : forall c w, length w = d -> c = map2 Z.sub w ks ->
    ((exists p, In p (pc_points cloud) /\ beam_passes M B (real r) (map real o) (map real p) c) <-> scan_passes d M (real r) s w)).
  { intros c w Lw ->. split.
    - intros (p & Hp & A). destruct (Forall2_right _ _ _ _ _ p K Hp) as (q & Hq & _ & _ & _ & _ & _ & P & _). exists q. split; [exact Hq|].
      apply P in A; [|now apply LS]. rewrite UD in A by assumption. exact A.
    - intros (q & Hq & A). destruct (Forall2_left _ _ _ _ _ q K Hq) as (p & Hp & _ & _ & _ & _ & _ & P & _). exists p. split; [exact Hp|].
      apply P; [now apply LS|]. rewrite UD by assumption. exact A. }
  assert (CL : forall p, In p (pc_points cloud) -> length p = d /\ clear_ray (max_range m) r b o p) by (intros p Hp; destruct (Forall2_right _ _ _ _ _ p K Hp) as (q & _ & Lp & _ & CR & _); auto).
  assert (SH : nd_shape (gm_data g1) = map2 Z.sub (cmax cb') (cmin cb')) by exact (cc_shape _ _ _ _ _ C1).
  destruct (map_meets d r t fuel of oo m g g1 o cloud MR Rg Hf Ho RQ Lo E1 Pm Fm Bm F CL) as [T1 _]. fold b B M in T1.
  assert (SUB : forall w, in_box cb w -> in_box cb' w) by (intros w J; exact (proj1 (KEEP w J))).
  exists g1, cb, cb'. split; [exact E1|]. split; [exact C|]. split; [exact C1|]. split; [exact SUB|]. split.
  - rewrite T1. split.
    + intros I w J. pose proof (HL w J) as Lw. apply box_range; [exact L12|]. split; [fold ks; unfold cell in *; congruence|]. rewrite <- SH. apply I.
      destruct J as [J|J]; [left; now apply (HW _ w Lw eq_refl)|right; now apply (HP _ w Lw eq_refl)].
    + intros I c J. assert (Lc : length c = d).
      { destruct J as [(p & Hp & -> & _)|(p & Hp & (Mw & _) & _)].
        - unfold nearest_cell. destruct (CL p Hp) as [Lp _]. rewrite ConverterProofs.map2_length; unfold B; rewrite ?map_length; unfold point in *; congruence.
        - rewrite Mw, map_length. exact Lo. }
      pose proof (LA c Lc) as Lw. assert (Ec : c = map2 Z.sub (map2 Z.add c ks) ks) by (symmetry; now apply DU).
      assert (IB : in_box cb' (map2 Z.add c ks)).
      { apply I. destruct J as [J|J]; [left; now apply (HW c _ Lw Ec)|right; now apply (HP c _ Lw Ec)]. }
      apply box_range in IB; [|exact L12]. destruct IB as [_ IB]. fold ks in IB. rewrite DU in IB by assumption. rewrite SH. exact IB.
  - intros g' E'.
    destruct (integrate_places d r t fuel of oo m g o cloud g' MR Rg RQ Hf Ho E') as (cb0 & cb1 & free & occ & C0 & C' & CR & IR & SUB' & PL).
    pose proof (covers_unique d r t _ _ _ (proj1 (proj2 MR)) C0 C). subst cb0. 
    destruct (integrate_spec fuel of oo m g o cloud g' Hf Ho (cc_storage _ _ _ _ _ C) E') as (g2 & _ & _ & E2 & _ & _ & S' & ES & EB & ER & ET & _).
    assert (g2 = g1) by congruence. subst g2.
    assert (C'' : covers_cells d r t g' cb').
    { apply (covers_same d r t g1 g' cb' C1 S' ES EB); [rewrite ER, (cc_resolution _ _ _ _ _ C), (cc_resolution _ _ _ _ _ C1); reflexivity|rewrite ET, (cc_tile_size _ _ _ _ _ C), (cc_tile_size _ _ _ _ _ C1); reflexivity]. }
    pose proof (covers_unique d r t _ _ _ (proj1 (proj2 MR)) C' C''). subst cb1. split; [exact C''|].
    destruct (scan_meets d fuel o cloud (gm_bounds g1) r (max_range m) (proj1 MR) Lo Lb Pm Fm Bm F CL) as (free' & occ' & CR' & HO & HF). fold b B M in HO, HF.
    rewrite EB, CR' in CR. injection CR as <- <-.
    intros w v old Lw V WV. pose proof (HO (map2 Z.sub w ks)) as HO'. rewrite (HW _ w Lw eq_refl) in HO'.
    pose proof (HF (map2 Z.sub w ks)) as HF'. rewrite (HP _ w Lw eq_refl), HO' in HF'.
    assert (INB : In (map2 Z.sub w ks) free' \/ In (map2 Z.sub w ks) occ' -> in_box cb' w).
    { intro J. apply box_range; [exact L12|]. split; [fold ks; unfold cell in *; congruence|]. rewrite <- SH, <- ES. now apply IR. }
    assert (OLD : in_box cb' w -> exists v0, v0 = old /\ 
     (In (map2 Z.sub w ks) occ' -> gm_get g' (map2 Z.sub w ks) = Ret (evidence m v0 true)) /\ (In (map2 Z.sub w ks) free' -> gm_get g' (map2 Z.sub w ks) = Ret (evidence m v0 false)) /\
     (~ In (map2 Z.sub w ks) occ' -> ~ In (map2 Z.sub w ks) free' -> gm_get g' (map2 Z.sub w ks) = Ret v0)).
    { intro IB. destruct (PL w IB) as (v0 & [V1 V2] & P1 & P2 & P3). exists v0. split; [|auto].
      destruct (in_box_dec cb w) as [J|J]; [|rewrite (V2 J), (proj2 WV J); reflexivity].
      specialize (V1 J). pose proof (proj1 WV J). congruence. }
    destruct v as [[|]|]; cbn [verdict observe] in *.
    + assert (J : In (map2 Z.sub w ks) occ') by now apply HO'. pose proof (INB (or_intror J)) as IB. destruct (OLD IB) as (v0 & -> & G & _).
      split; [|auto]. split; [intros _; now apply G|now intro N; elim N].
    + assert (J : In (map2 Z.sub w ks) free') by now apply HF'. pose proof (INB (or_introl J)) as IB. destruct (OLD IB) as (v0 & -> & _ & G & _).
      split; [|auto]. split; [intros _; now apply G|now intro N; elim N].
    + split; [|now intro N; elim N]. destruct V as [V1 V2]. split.
      * intro IB. destruct (OLD IB) as (v0 & -> & _ & _ & G). apply G; [now rewrite HO'|rewrite HF'; tauto].
      * intro NB. apply (proj2 WV). intro IB. now apply NB, SUB.
Qed.

Lemma verdict_exists : forall d M r w s, exists v, verdict d M r w s v.
Proof.
  intros d M r w s. destruct (classic (scan_hits d M r s w)) as [H|H]; [now exists (Some true)|].
  destruct (classic (scan_passes d M r s w)) as [K|K]; [now exists (Some false)|]. now exists None.
Qed.
Lemma verdict_one : forall d M r w s, exists v, verdict d M r w s v /\ forall v', verdict d M r w s v' -> v' = v.
Proof. intros d M r w s. destruct (verdict_exists d M r w s) as [v V]. exists v. split; [exact V|]. destruct v as [[|]|]; intros [[|]|]; cbn in *; tauto. Qed.
Lemma verdicts_exist : forall d M r w L, exists vs, Forall2 (verdict d M r w) L vs.
Proof.
  intros d M r w L. induction L as [|s L [vs IH]]; [now exists []|]. destruct (verdict_exists d M r w s) as [v V]. exists (v :: vs). now constructor.
Qed.

(** ** Whole recordings *)
Lemma recorded_facts : forall d r t m o L, recorded d r t m o L -> om_model o = m /\ reachable d r t (om_grid o).
Proof.
  intros d r t m o L H. induction H as [o E|o L s fuel of oo origin cloud o' H [E R] Hf Ho OK F E'|o L x H [E R]|o L H [E R]].
  - exact (scanned_facts _ _ _ _ _ _ (scanned_new d r t m o E)).
  - unfold om_integrate in E'. destruct (integrate_point_cloud _ _ _ _ _ _ _) as [g'| |] eqn:G; try discriminate. cbn [obind] in E'. injection E' as <-. cbn [om_grid om_model].
    split; [exact E|]. destruct OK as (_ & RQ & _). rewrite E in G. exact (integrate_reachable _ _ _ _ _ _ _ _ _ _ _ R RQ G).
  - split; [exact E|]. cbn [om_grid]. now apply reach_track.
  - split; [exact E|]. cbn [om_grid]. now apply reach_clear.
Qed.

Lemma recorded_values : forall d r t m o L, map_range d r t -> fltb f0 (max_range m) = true -> finite (max_range m) -> real (max_range m) <= 1048576 * real r ->
  recorded d r t m o L -> exists cb, covers_cells d r t (om_grid o) cb /\
    forall w vs, length w = d -> Forall2 (verdict d (real (max_range m)) (real r) w) L vs ->
      world_value (om_grid o) cb f0 w (fold_left (observe m) vs f0) /\ (Exists (fun v => v <> None) vs -> in_box cb w).
Proof.
  intros d r t m o L MR Pm Fm Bm H.
  induction H as [o E|o L s fuel of oo origin cloud o' H IH Hf Ho OK F E|o L x H IH|o L H IH].
  - pose proof (scanned_facts _ _ _ _ _ _ (scanned_new d r t m o E)) as [_ R].
    unfold om_new in E. destruct (gm_new _ _ _ _) as [g| |] eqn:G; try discriminate. cbn [obind] in E. injection E as <-. cbn [om_grid] in *.
    rewrite (empty_bounds d r (proj1 (proj2 MR))) in G. destruct (zero_ordered d t) as (O & T & N0). destruct (wf_new _ _ _ _ _ _ MR O T N0 G) as [W0 _].
    exists (cb_empty d). split; [now apply wf_covers|]. intros w vs Lw S. inversion_clear S. split; [|intro X; inversion X]. split; [|reflexivity].
    intros Hw. exfalso. apply (box_range _ w) in Hw; [|reflexivity]. destruct Hw as [_ Hw]. revert Hw. apply empty_no_cells, MR.
  - destruct IH as (cb & C & V). destruct (recorded_facts _ _ _ _ _ _ H) as [Em Rg].
    unfold om_integrate in E. rewrite Em in E.
    destruct (world_scan d r t fuel of oo m (om_grid o) s origin cloud MR Rg Hf Ho OK F Pm Fm Bm) as (g1 & cb0 & cb' & _ & C0 & _ & SUB & _ & Q).
    destruct (integrate_point_cloud _ _ _ _ _ _ _) as [g'| |] eqn:G; try discriminate. cbn [obind] in E. injection E as <-. cbn [om_grid].
    rewrite (covers_unique d r t _ _ _ (proj1 (proj2 MR)) C0 C) in Q, SUB. clear cb0 C0.
    destruct (Q g' eq_refl) as [C' Q']. exists cb'. split; [exact C'|]. intros w vs Lw S.
    apply Forall2_app_inv_l in S. destruct S as (vs1 & vs2 & S1 & S2 & ->). inversion_clear S2 as [|? v ? ? Sv S0]. inversion_clear S0.
    destruct (V w vs1 Lw S1) as [V1 B1]. destruct (Q' w v _ Lw Sv V1) as [V' B']. split; [rewrite fold_left_app; exact V'|].
    intro X. apply Exists_app in X. destruct X as [X|X]; [now apply SUB, B1|]. inversion_clear X as [? ? X1|? ? X1]; [now apply B'|inversion X1].
  - destruct IH as (cb & C & V). exists cb. split; [|exact V]. destruct C as [C1 C2 C3 C4 C5 C6 C7 C8 C9]. constructor; assumption.
  - destruct IH as (cb & C & V). exists cb. split; [|exact V]. destruct C as [C1 C2 C3 C4 C5 C6 C7 C8 C9]. constructor; assumption.
Qed.

Lemma verdicts_unique : forall d M r w L vs vs', Forall2 (verdict d M r w) L vs -> Forall2 (verdict d M r w) L vs' -> vs' = vs.
Proof.
  intros d M r w L vs vs' H. revert vs'. induction H as [|s v L vs V H IH]; intros vs' H'; inversion_clear H' as [|? v' ? vs'' V' H'']; [reflexivity|].
  destruct (verdict_one d M r w s) as (x & _ & U). rewrite (U v V), (U v' V'), (IH _ H''). reflexivity.
Qed.
Lemma recorded_cells : forall d r t m o L, map_range d r t -> fltb f0 (max_range m) = true -> finite (max_range m) -> real (max_range m) <= 1048576 * real r ->
  recorded d r t m o L -> exists cb, covers_cells d r t (om_grid o) cb /\
    forall w, length w = d -> exists vs, Forall2 (verdict d (real (max_range m)) (real r) w) L vs /\ (forall vs', Forall2 (verdict d (real (max_range m)) (real r) w) L vs' -> vs' = vs) /\
      world_value (om_grid o) cb f0 w (fold_left (observe m) vs f0) /\ (Exists (fun v => v <> None) vs -> in_box cb w).
Proof.
  intros d r t m o L MR Pm Fm Bm H. destruct (recorded_values d r t m o L MR Pm Fm Bm H) as (cb & C & V). exists cb. split; [exact C|].
  intros w Lw. destruct (verdicts_exist d (real (max_range m)) (real r) w L) as [vs Vs]. exists vs. split; [exact Vs|]. split; [intro vs'; exact (verdicts_unique _ _ _ _ _ _ _ Vs)|now apply V].
Qed.

Lemma recorded_same : forall d r t t' m o o' L, map_range d r t -> map_range d r t' -> fltb f0 (max_range m) = true -> finite (max_range m) -> real (max_range m) <= 1048576 * real r ->
  recorded d r t m o L -> recorded d r t' m o' L -> exists cb cb', covers_cells d r t (om_grid o) cb /\ covers_cells d r t' (om_grid o') cb' /\
    forall w, length w = d -> exists v, world_value (om_grid o) cb f0 w v /\ world_value (om_grid o') cb' f0 w v.
Proof.
  intros d r t t' m o o' L MR MR' Pm Fm Bm H H'. destruct (recorded_values d r t m o L MR Pm Fm Bm H) as (cb & C & V).
  destruct (recorded_values d r t' m o' L MR' Pm Fm Bm H') as (cb' & C' & V'). exists cb, cb'. split; [exact C|]. split; [exact C'|].
  intros w Lw. destruct (verdicts_exist d (real (max_range m)) (real r) w L) as [vs Vs]. exists (fold_left (observe m) vs f0).
  split; [now apply V|now apply V'].
Qed.

Lemma recorded_continues : forall d r t m o L s fuel of oo origin cloud, map_range d r t -> fltb f0 (max_range m) = true -> finite (max_range m) -> real (max_range m) <= 1048576 * real r ->
  recorded d r t m o L -> is_order of -> is_order oo -> records d (max_range m) r (om_grid o) s origin cloud -> (3072 <= fuel)%nat ->
  exists g1 cb, gm_expand_bounds (om_grid o) (pc_bounds cloud) f0 = Ret g1 /\ covers_cells d r t g1 cb /\
    ((exists o', om_integrate fuel of oo o origin cloud = Ret o') <->
     (forall w, scan_hits d (real (max_range m)) (real r) s w \/ scan_passes d (real (max_range m)) (real r) s w -> in_box cb w)).
Proof.
  intros d r t m o L s fuel of oo origin cloud MR Pm Fm Bm H Hf Ho OK F. destruct (recorded_facts _ _ _ _ _ _ H) as [Em Rg].
  destruct (world_scan d r t fuel of oo m (om_grid o) s origin cloud MR Rg Hf Ho OK F Pm Fm Bm) as (g1 & cb0 & cb' & E1 & _ & C1 & _ & T & _).
  exists g1, cb'. split; [exact E1|]. split; [exact C1|]. rewrite <- T. unfold om_integrate. rewrite Em. split.
  - intros [o' E]. destruct (integrate_point_cloud _ _ _ _ _ _ _) as [g'| |]; try discriminate. now exists g'.
  - intros [g' ->]. cbn [obind]. eexists. reflexivity.
Qed.

(** A clear beam meets only cells between its first and its last one. *)
Lemma inside_axis : forall r x, 0 < r -> (forall k, / 8 * r <= Rabs (x - (0 + (IZR k + / 2) * r))) ->
  Rabs (x - IZR (ZnearestA ((x - 0) / r)) * r) <= (/ 2 - / 8) * r.
Proof.
  intros r x Pr H. set (a := ZnearestA ((x - 0) / r)).
  pose proof (Znearest_half (Z.leb 0) ((x - 0) / r)) as N. fold a in N.
  assert (Ex : (x - 0) / r * r = x) by (field; lra). set (y := (x - 0) / r) in *. apply Rabs_le_inv in N.
  assert (U : x <= (IZR a + / 2) * r) by (rewrite <- Ex; apply Rmult_le_compat_r; lra).
  assert (L : (IZR a - / 2) * r <= x) by (rewrite <- Ex; apply Rmult_le_compat_r; lra).
  pose proof (H a) as Ha. pose proof (H (a - 1)%Z) as Hb. rewrite minus_IZR in Hb.
  rewrite Rabs_left1 in Ha by lra. rewrite Rabs_pos_eq in Hb by lra. apply Rabs_le. lra.
Qed.
Lemma between_axis : forall r a b x o e u, 0 < r -> Rabs (o - IZR a * r) <= (/ 2 - / 8) * r -> Rabs (e - IZR b * r) <= (/ 2 - / 8) * r -> 0 <= u <= 1 ->
  Rabs (o + u * (e - o) - (0 + IZR x * r)) <= r / 2 -> (Z.min a b <= x <= Z.max a b)%Z.
Proof.
  intros r a b x o e u Pr Ho He Hu Hx. apply Rabs_le_inv in Ho, He, Hx.
  assert (C : (o <= o + u * (e - o) <= e) \/ (e <= o + u * (e - o) <= o)) by (destruct (Rle_lt_dec o e); [left|right]; nra).
  split.
  - destruct (Z_le_gt_dec (Z.min a b) x) as [K|K]; [exact K|exfalso].
    assert (A : IZR x + 1 <= IZR a) by (rewrite <- plus_IZR; apply IZR_le; lia). assert (B : IZR x + 1 <= IZR b) by (rewrite <- plus_IZR; apply IZR_le; lia).
    assert (A' : (IZR x + 1) * r <= IZR a * r) by (apply Rmult_le_compat_r; lra). assert (B' : (IZR x + 1) * r <= IZR b * r) by (apply Rmult_le_compat_r; lra). lra.
  - destruct (Z_le_gt_dec x (Z.max a b)) as [K|K]; [exact K|exfalso].
    assert (A : IZR a + 1 <= IZR x) by (rewrite <- plus_IZR; apply IZR_le; lia). assert (B : IZR b + 1 <= IZR x) by (rewrite <- plus_IZR; apply IZR_le; lia).
    assert (A' : (IZR a + 1) * r <= IZR x * r) by (apply Rmult_le_compat_r; lra). assert (B' : (IZR b + 1) * r <= IZR x * r) by (apply Rmult_le_compat_r; lra). lra.
Qed.
Lemma met_between : forall d r M (o e : list R) x, 0 < r -> length o = d -> length e = d -> clear_segment M (world d) r o e -> meets (world d) r o e x ->
  forall i, (i < d)%nat -> let a := nth i (nearest_cell (world d) r o) 0%Z in let b := nth i (nearest_cell (world d) r e) 0%Z in
  (Z.min a b <= nth i x 0 <= Z.max a b)%Z.
Proof.
  intros d r M o e x Pr Lo Le (BO & BE & _) (Lx & u & Hu & IC) i Hi a b.
  assert (LW : length (world d) = d) by apply repeat_length. assert (NW : nth i (world d) 0 = 0) by apply nth_repeat.
  assert (Ea : a = ZnearestA ((nth i o 0 - 0) / r)) by (unfold a, nearest_cell; rewrite (nth_map2 _ o (world d) i 0 0 0%Z), NW by lia; reflexivity).
  assert (Eb : b = ZnearestA ((nth i e 0 - 0) / r)) by (unfold b, nearest_cell; rewrite (nth_map2 _ e (world d) i 0 0 0%Z), NW by lia; reflexivity).
  specialize (IC i ltac:(lia)). unfold seg in IC. rewrite (nth_map2 _ o e i 0 0 0), NW in IC by lia.
  apply (between_axis r a b _ (nth i o 0) (nth i e 0) u Pr); [| |exact Hu|exact IC]; [rewrite Ea|rewrite Eb]; apply inside_axis; auto; intro k; [specialize (BO i k ltac:(lia))|specialize (BE i k ltac:(lia))]; rewrite NW in *; assumption.
Qed.

Lemma box_between : forall cb d a b x, length (cmin cb) = d -> length (cmax cb) = d -> length a = d -> length b = d -> length x = d -> in_box cb a -> in_box cb b ->
  (forall i, (i < d)%nat -> (Z.min (nth i a 0) (nth i b 0) <= nth i x 0 <= Z.max (nth i a 0) (nth i b 0))%Z) -> in_box cb x.
Proof.
  intros cb d a b x L1 L2 La Lb Lx [A1 A2] [B1 B2] H. unfold cell in *.
  split; apply (Forall2_nth_iff _ 0%Z 0%Z); try congruence; intros i Hi; specialize (H i ltac:(lia)).
  - pose proof (proj1 (Forall2_nth_iff _ 0%Z 0%Z _ _ (eq_trans L1 (eq_sym La))) A1 i ltac:(lia)). pose proof (proj1 (Forall2_nth_iff _ 0%Z 0%Z _ _ (eq_trans L1 (eq_sym Lb))) B1 i ltac:(lia)). cbv beta in *. lia.
  - pose proof (proj1 (Forall2_nth_iff _ 0%Z 0%Z _ _ (eq_trans La (eq_sym L2))) A2 i ltac:(lia)). pose proof (proj1 (Forall2_nth_iff _ 0%Z 0%Z _ _ (eq_trans Lb (eq_sym L2))) B2 i ltac:(lia)). cbv beta in *. lia.
Qed.

(** If the cells of the sensor and of the points are in the map the scan is taken. *)
Lemma recorded_ends : forall d r t m o L s fuel of oo origin cloud, map_range d r t -> fltb f0 (max_range m) = true -> finite (max_range m) -> real (max_range m) <= 1048576 * real r ->
  recorded d r t m o L -> is_order of -> is_order oo -> records d (max_range m) r (om_grid o) s origin cloud -> (3072 <= fuel)%nat ->
  forall g1 cb, gm_expand_bounds (om_grid o) (pc_bounds cloud) f0 = Ret g1 -> covers_cells d r t g1 cb ->
  in_box cb (nearest_cell (world d) (real r) (fst s)) -> (forall q, In q (snd s) -> in_box cb (nearest_cell (world d) (real r) q)) ->
  exists o', om_integrate fuel of oo o origin cloud = Ret o'.
Proof.
  intros d r t m o L s fuel of oo origin cloud MR Pm Fm Bm H Hf Ho OK F g1 cb E1 C Q1 Q.
  destruct (recorded_continues d r t m o L s fuel of oo origin cloud MR Pm Fm Bm H Hf Ho OK F) as (g1' & cb' & E1' & C' & T). apply T. clear T.
  assert (g1' = g1) by congruence. subst g1'. rewrite (covers_unique d r t _ _ _ (proj1 (proj2 MR)) C' C). clear cb' C' E1'.
  destruct OK as (Lo & _ & Co & K). specialize (K g1 E1).
  assert (Pr : 0 < real r) by exact (res_ok_pos r (proj1 (proj2 MR))).
  assert (LO : length (fst s) = d) by (pose proof (Forall2_length _ _ _ Co) as X; rewrite map_length in X; unfold point in *; congruence).
  destruct (cc_ordered _ _ _ _ _ C) as (L1 & L2 & _).
  intros w [(q & Iq & -> & _)|(q & Iq & Mw & _)]; pose proof (Q q Iq) as Q2; [exact Q2|].
  destruct (Forall2_left _ _ _ _ _ q K Iq) as (p & _ & Lp & _ & Cp & CS).
  assert (Lq : length q = d) by (pose proof (Forall2_length _ _ _ Cp) as X; rewrite map_length in X; unfold point in *; congruence).
  assert (LN : forall p, length p = d -> length (nearest_cell (world d) (real r) p) = d) by (intros p' L'; unfold nearest_cell; rewrite ConverterProofs.map2_length; unfold world; rewrite ?repeat_length; congruence).
  apply (box_between cb d (nearest_cell (world d) (real r) (fst s)) (nearest_cell (world d) (real r) q)); auto.
  - rewrite (proj1 Mw). exact LO.
  - exact (met_between d (real r) _ _ _ _ Pr LO Lq CS Mw).
Qed.
