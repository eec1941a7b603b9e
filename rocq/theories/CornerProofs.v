(** Recordings whose first frame fixes the lower corner of the map. *)
From Coq Require Import ZArith List Bool Reals Lra Lia Permutation.
From Flocq Require Import Core BinarySingleNaN.
From Verif Require Import Base F32 FloatFacts RoundError Arith Geom NdArray GridMap RayCaster NoiseModel Spec SpecMap SpecNoise ConverterProofs BoundsProofs NdProofs GridProofs ExpandProofs MapProofs NoiseProofs ScanProofs RayReach ApproxProofs Viz SpecViz VizProofs MainProofs ProgramProofs LiveProofs.
Open Scope Z_scope.

Lemma no_cells_zero : forall d (g : grid_map f32) c v, (d = 2 \/ d = 3)%nat ->
  nd_shape (gm_data g) = map2 Z.sub (cmax (cb_empty d)) (cmin (cb_empty d)) -> gm_get g c <> Ret v.
Proof.
  intros d g c v Hd E G. unfold gm_get in G. rewrite get_out in G; [discriminate G|]. rewrite E. intro K. destruct Hd as [-> | ->]; cbn in K; inversion K; subst; lia.
Qed.
Lemma scanned_nothing : forall d r t m o L, map_range d r t -> scanned d r t m o L -> L = [] -> wf d r t (om_grid o) (cb_empty d).
Proof.
  intros d r t m o L M H. induction H as [o E|o L fuel of oo origin cloud o' _ _ _ _ _ _ _|o L x _ IH|o L _ IH]; intro EL.
  - unfold om_new in E. destruct (gm_new _ _ _ _) as [g| |] eqn:G; try discriminate. cbn [obind] in E. injection E as <-. cbn [om_grid].
    destruct (zero_ordered d t) as (O & T & N). rewrite (empty_bounds d r) in G by apply M. exact (proj1 (wf_new _ _ _ _ _ _ M O T N G)).
  - destruct L; discriminate EL.
  - specialize (IH EL). apply (wf_same d r t (om_grid o)); try reflexivity; [assumption|]. apply (wf_storage _ _ _ _ _ IH).
  - specialize (IH EL). apply (wf_same d r t (om_grid o)); try reflexivity; [assumption|]. apply (wf_storage _ _ _ _ _ IH).
Qed.

Lemma step_grid : forall rec s th ev s', Inv rec s -> cur s' <> WPanicked -> step rec s th ev s' ->
  ((forall a b, ~ In (EIntegrate a b) ev) /\ integrations ev = 0%nat /\
   gm_data (om_grid (grid s')) = gm_data (om_grid (grid s)) /\ gm_bounds (om_grid (grid s')) = gm_bounds (om_grid (grid s)) /\
   gm_resolution (om_grid (grid s')) = gm_resolution (om_grid (grid s)) /\ gm_tile_size (om_grid (grid s')) = gm_tile_size (om_grid (grid s))) \/
  exists w older fuel of oo, workers s = w :: older /\ w_pc w = WIntegrate /\ is_order of /\ is_order oo /\
    om_integrate fuel of oo (grid s) (w_origin w) (w_cloud w) = Ret (grid s') /\ ev = [EIntegrate (grid s) (grid s')].
Proof.
  intros rec s th ev s' I NP H. destruct H as [ev s' H|newer w older ev pc s' Ew H].
  - left. destruct H; fields; (split; [intros a b K; cbn [In] in K; intuition discriminate|]); repeat split; reflexivity.
  - pose proof (worker_newest _ _ _ _ _ _ _ _ I Ew H) as ->. unfold cur in NP. fields. cbn [app w_pc at_pc] in *.
    destruct H; fields; try congruence; try (left; (split; [intros a b K; cbn [In] in K; intuition discriminate|]); repeat split; reflexivity).
    right. exists w, older, fuel, of, oo. auto 10.
Qed.

(** Moving a coordinate down never moves the discretized coordinate up. *)
Lemma near_up : forall x y nx ny : f32, finite x -> finite y -> finite nx -> finite ny -> (real x <= real y < real nx)%R -> real nx = IZR (ZnearestA (real x)) ->
  real ny = real nx -> relative_eq x nx = true -> relative_eq y ny = true.
Proof.
  unfold real, finite. intros x y nx ny Fx Fy Fn Fm [Hxy Hyn] En Em' H. apply ApproxProofs.relative_complete; try assumption.
  assert (EB : bpow radix2 (-23) = (/ 8388608)%R) by reflexivity. rewrite EB, Em'. clear ny Fm Em'.
  assert (Hh : (IZR (ZnearestA (B2R x)) - B2R x <= / 2)%R).
  { pose proof (Znearest_half (Z.leb 0) (B2R x)) as K. apply Rabs_le_inv in K. lra. }
  set (n := ZnearestA (B2R x)) in *. rewrite En in *. rewrite (Rabs_left (B2R y - IZR n)) by lra.
  destruct (Z.eq_dec n 0) as [Z|Z].
  - (* below zero *)
    rewrite Z in *. clear n Z. apply Rle_trans with (/ 8388608 * 1)%R; [|apply Rmult_le_compat_l; [lra|apply Rmax_l]].
    enough (- B2R x <= / 8388608)%R by lra.
    unfold relative_eq, relative_eq_with in H. destruct (feqb x nx) eqn:E.
    { apply feqb_iff in E. destruct E as (_ & _ & E). rewrite !ext_finite in E by assumption. rewrite E, En in *. lra. }
    replace (is_inf x) with false in H by (destruct x; try discriminate; reflexivity).
    replace (is_inf nx) with false in H by (destruct nx; try discriminate; reflexivity). cbn [orb] in H.
    destruct (fsub_ext x nx Fx Fn) as [Nd Ed]. rewrite En, Rminus_0_r, rnd_float, <- (ext_finite x Fx), clamp_ext, (ext_finite x Fx) in Ed.
    assert (FD : forall z : f32, finite z -> fleb (fabs (fsub x nx)) z = true -> (- B2R x <= B2R z)%R).
    { intros z Fz K. apply fleb_iff in K. destruct K as (_ & _ & K). rewrite (ext_finite z), ext_fabs, Ed in K by assumption. rewrite Rabs_left in K by lra. exact K. }
    destruct (fleb (fabs (fsub x nx)) feps) eqn:E1; [rewrite <- feps_real; now apply FD|].
    destruct (fabs_fin x Fx) as [Fax Eax]. destruct (fabs_fin nx Fn) as [Fan Ean].
    set (l := if fltb (fabs x) (fabs nx) then fabs nx else fabs x) in H.
    assert (Fl : is_finite l = true) by (unfold l; destruct fltb; assumption).
    assert (El : (0 <= B2R l <= 1)%R).
    { unfold l. destruct fltb; rewrite ?Eax, ?Ean, ?En, ?Rabs_R0, ?Rabs_left by lra; lra. }
    assert (B : (Rabs (rnd (B2R l * B2R feps)) <= / 8388608)%R).
    { rewrite feps_real. replace (/ 8388608)%R with (bpow radix2 (-23)) at 2 by reflexivity. apply rnd_abs_le_bp; [lia|]. rewrite EB, Rabs_pos_eq by lra. lra. }
    destruct (fmul_fin l feps Fl feps_fin) as [Fm Em].
    { eapply Rle_lt_trans; [exact B|]. rewrite <- EB. apply bpow_lt. lia. }
    pose proof (FD _ Fm H) as K. rewrite Em in K. apply Rabs_le_inv in B. lra.
  - assert (H1 : (1 <= Rmax (Rabs (B2R x)) (Rabs (B2R nx)))%R).
    { apply Rle_trans with (2 := Rmax_r _ _). rewrite En, <- abs_IZR. apply IZR_le. lia. }
    pose proof (ApproxProofs.relative_sound x nx Fx Fn H H1) as K. rewrite EB, En in K. rewrite (Rabs_left (B2R x - IZR n)) in K by lra.
    destruct (Z_lt_le_dec n 0) as [N|N].
    + (* negative *)
      apply (IZR_lt n 0) in N. rewrite (Rabs_left (B2R x)), (Rabs_left (IZR n)) in * by lra. rewrite Rmax_left in K by lra.
      apply Rle_trans with (/ 8388608 * - B2R y)%R; [lra|]. apply Rmult_le_compat_l; [lra|].
      apply Rle_trans with (Rmax (Rabs (B2R y)) (- IZR n)); [|apply Rmax_r]. rewrite (Rabs_left (B2R y)) by lra. apply Rmax_l.
    + assert (N1 : 1 <= n) by lia. apply IZR_le in N1. rewrite (Rabs_pos_eq (IZR n)), (Rabs_pos_eq (B2R x)) in * by lra. rewrite Rmax_right in K by lra.
      apply Rle_trans with (/ 8388608 * IZR n)%R; [lra|]. apply Rmult_le_compat_l; [lra|].
      apply Rle_trans with (Rmax (Rabs (B2R y)) (IZR n)); [apply Rmax_r|apply Rmax_r].
Qed.
Lemma disc_lower : forall r x y, res_ok r -> within_cells (2 ^ 18) r x -> within_cells (2 ^ 18) r y -> (real x <= real y)%R ->
  wc r (fdisc_min1 r x) <= wc r (fdisc_min1 r y).
Proof.
  intros r x y HR [Fx Wx] [Fy Wy] Hxy. pose proof (res_ok_pos r HR) as P. pose proof HR as [Fr _].
  assert (Lxy : fle x y) by (apply fleb_iff; rewrite !ext_finite by assumption; repeat split; try assumption; now apply is_finite_not_nan).
  destruct (fdisc_min1_spec r x Fr P (is_finite_not_nan x Fx)) as [_ A].
  unfold fdisc_min1 in *. set (qx := fdiv x r) in *. set (qy := fdiv y r) in *.
  assert (Q : (finite qx /\ finite qy /\ real qx <= real qy)%R).
  { destruct (div_mono x y r) as (N1 & N2 & L); try assumption; try (now apply is_finite_not_nan); [now rewrite !ext_finite by assumption|]. fold qx qy in N1, N2, L.
    assert (G : forall v, finite v -> (Rabs (real v) <= IZR (2 ^ 18) * real r)%R -> finite (fdiv v r)).
    { intros v Fv Wv. unfold real in *. destruct (fdiv_fin v r Fv Fr) as [G _]; [lra| |exact G].
      apply rnd_abs_lt_128. apply Rle_trans with (IZR (2 ^ 18)).
      - unfold Rdiv. rewrite Rabs_mult, Rabs_inv, (Rabs_pos_eq (B2R r)) by lra. apply Rmult_le_reg_r with (B2R r); [assumption|].
        rewrite Rmult_assoc, Rinv_l by lra. lra.
      - change (2 ^ 18)%Z with (Zpower radix2 18). rewrite IZR_Zpower by lia. apply bpow_le. lia. }
    pose proof (G x Fx Wx) as G1. pose proof (G y Fy Wy) as G2. split; [exact G1|]. split; [exact G2|]. unfold real. now rewrite !ext_finite in L by assumption. }
  destruct Q as (Fqx & Fqy & Lq). unfold finite, real in Fqx, Fqy, Lq.
  destruct (fround_fin qx Fqx) as [Frx Erx]. destruct (fround_fin qy Fqy) as [Fry Ery]. destruct (ffloor_fin qx Fqx) as [Fflx Eflx]. destruct (ffloor_fin qy Fqy) as [Ffly Efly].
  destruct (relative_eq qx (fround qx)) eqn:Nx, (relative_eq qy (fround qy)) eqn:Ny.
  - now apply wc_mono.
  - (* only x is on the grid *)
    assert (K : (ZnearestA (B2R qx) <= Zfloor (B2R qy))%Z).
    { apply Zfloor_lub. destruct (Rle_or_lt (IZR (ZnearestA (B2R qx))) (B2R qy)) as [|G]; [assumption|exfalso].
      rewrite <- Erx in G. assert (Ey : ZnearestA (B2R qy) = ZnearestA (B2R qx)).
      { enough (ZnearestA (B2R qy) <= ZnearestA (B2R qx) /\ ZnearestA (B2R qx) <= ZnearestA (B2R qy))%Z by lia; split; [|now apply ZnearestA_le]. rewrite Erx in G. replace (ZnearestA (B2R qx)) with (ZnearestA (IZR (ZnearestA (B2R qx)))); [apply ZnearestA_le; lra|].
        apply Znearest_imp. rewrite Rminus_diag_eq, Rabs_R0 by reflexivity. lra. }
      assert (Nx' : relative_eq qy (fround qy) = true); [|congruence].
      apply (near_up qx qy (fround qx) (fround qy)); try assumption; [split; assumption|]. unfold real. rewrite Erx, Ery, Ey. reflexivity. }
    set (n := Zfloor (B2R qy)) in *. change (2 ^ 18) with 262144 in *.
    assert (Eq : forall v q, finite v -> q = fdiv v r -> finite q -> B2R q = rnd (B2R v / B2R r)).
    { intros v q Fv -> Fq. destruct (fdiv_ext v r Fv Fr) as [_ E]; [lra|]. rewrite ext_finite in E by assumption. now apply RayReach.clamp_inv; [|rewrite ext_finite]. }
    assert (Bq : (Rabs (B2R qy) <= 262145)%R).
    { rewrite (Eq y qy Fy eq_refl Fqy). apply Rle_trans with (IZR 262145); [|lra]. rewrite <- (rnd_IZR 262145) by lia.
      assert (Bq : (Rabs (B2R y / B2R r) <= IZR 262145)%R).
      { unfold Rdiv, real in *. rewrite Rabs_mult, Rabs_inv, (Rabs_pos_eq (B2R r)) by lra. apply Rmult_le_reg_r with (B2R r); [assumption|].
        rewrite Rmult_assoc, Rinv_l by lra. lra. }
      apply Rabs_le_inv in Bq. apply Rabs_le. rewrite <- ApproxProofs.rnd_opp'. split; apply rnd_le; lra. }
    assert (Bn : Z.abs n <= 262146).
    { pose proof (Zfloor_lb (B2R qy)) as B1. pose proof (Zfloor_ub (B2R qy)) as B2. fold n in B1, B2. apply Rabs_le_inv in Bq.
      assert (-262146 <= n <= 262146); [|lia]. split; apply le_IZR; lra. }
    assert (Bn' : (Rabs (IZR n) <= 262146)%R) by (rewrite <- abs_IZR; now apply IZR_le).
    assert (Sm : (Rabs (rnd (IZR n * B2R r)) < bpow radix2 128)%R).
    { destruct HR as [_ [_ Hr]]. unfold real in Hr. apply rnd_abs_lt_128. rewrite Rabs_mult, (Rabs_pos_eq (B2R r)) by lra.
      apply Rle_trans with (bpow radix2 20 * bpow radix2 100)%R; [|rewrite <- bpow_plus; apply bpow_le; lia].
      apply Rmult_le_compat; try apply Rabs_pos; try lra. replace (bpow radix2 20) with 1048576%R by reflexivity. lra. }
    rewrite (wc_close r HR (fmul (ffloor qy) r) n).
    + destruct HR as [_ Hr]. unfold real in *.
      destruct (quot_fin x f0 r Fx eq_refl Fr Hr) as [Fq _]; [simpl (B2R f0); rewrite Rminus_0_r; lra|].
      unfold wc. rewrite ccp_quot by assumption.
      assert (Ez : B2R (quot x f0 r) = B2R qx).
      { destruct (fsub_fin x f0 Fx eq_refl) as [Fs Es]; simpl (B2R f0) in *; rewrite ?Rminus_0_r, ?rnd_float in *; [apply B2R_lt_emax|].
        pose proof (Eq (fsub x f0) _ Fs eq_refl Fq) as E1. rewrite Es in E1. unfold quot. rewrite E1. symmetry. now apply Eq. }
      rewrite Ez. eapply Z.le_trans; [apply sat_le; exact K|]. rewrite sat_small; lia.
    + apply (fmul_fin (ffloor qy) r Ffly Fr). rewrite Efly. exact Sm.
    + lia.
    + destruct (fmul_fin (ffloor qy) r Ffly Fr) as [_ Em]; [rewrite Efly; exact Sm|]. rewrite Em, Efly. fold n.
      pose proof (rnd_err (IZR n * B2R r)) as RE. pose proof (bpow_le radix2 (-150) (-110) ltac:(lia)) as B1.
      assert (B2 : (bpow radix2 (-110) <= / 1024 * B2R r)%R).
      { destruct HR as [_ [Hr _]]. unfold real in Hr. replace (bpow radix2 (-110)) with (/ 1024 * bpow radix2 (-100))%R; [lra|].
        replace (/ 1024)%R with (bpow radix2 (-10)) by reflexivity. rewrite <- bpow_plus. reflexivity. }
      eapply Rle_trans; [exact RE|]. unfold u32. rewrite Rabs_mult, (Rabs_pos_eq (B2R r)) by lra.
      assert (B3 : (Rabs (IZR n) * B2R r <= 262146 * B2R r)%R) by (apply Rmult_le_compat_r; lra). lra.
  - eapply Z.le_trans; [apply wc_mono; [assumption|exact A]|]. now apply wc_mono.
  - apply wc_mono; [assumption|]. destruct (fmul_ext (ffloor qx) r Fflx Fr) as [N1 E1]. destruct (fmul_ext (ffloor qy) r Ffly Fr) as [N2 E2].
    apply fleb_iff. split; [assumption|]. split; [assumption|]. rewrite E1, E2. apply clamp_le, rnd_le. rewrite Eflx, Efly. apply Rmult_le_compat_r; [lra|].
    apply IZR_le. now apply Zfloor_le.
Qed.

(** The lower corner [low] that the first frame asks for. *)
Definition low (r : f32) (c0 : matrix) : cell := map (wc r) (map (fdisc_min1 r) (bmin (pc_bounds c0))).
Lemma low_of : forall d r b db, res_ok r -> request_ok d r b -> bounds_discretized b r true = Ret db ->
  cmin (cb_from_bounds db r) = map (wc r) (map (fdisc_min1 r) (bmin b)).
Proof.
  intros d r b db HR RQ E. destruct (disc_near d r b db HR RQ E) as ((D1 & D2 & _) & _). rewrite (from_bounds_map d) by assumption. cbn [cmin].
  unfold bounds_discretized, bounds_new, oassert in E. destruct (forallb _ _); [|discriminate E]. cbn [obind] in E. injection E as <-. reflexivity.
Qed.
Lemma below_same : forall t l u x, Forall2 Z.le l u -> Forall2 (tile_below t) (map2 Z.min l u) x -> Forall (Z.divide t) l -> 1 <= t -> x = l.
Proof.
  intros t l u x H. revert x. induction H as [|a b l u H0 H IH]; intros x F D Ht; cbn [map2] in F; inversion F as [|? z ? x' [Dz Bz] F']; subst; [reflexivity|].
  inversion D as [|? ? Da D']; subst. f_equal; [|now apply IH]. rewrite Z.min_l in Bz by assumption.
  destruct Dz as [p ->], Da as [q ->]. assert (p * t <= q * t < (p + 1) * t) by lia. assert (p = q) by nia. now subst.
Qed.
Lemma Forall2_le_trans : forall a b c, Forall2 Z.le a b -> Forall2 Z.le b c -> Forall2 Z.le a c.
Proof. intros a b c H. revert c. induction H; intros c' K; inversion K; subst; constructor; [lia|auto]. Qed.

Lemma corner_static : forall rec d r t m tr s, recording_ok d r t rec -> limit_near (max_range m) r -> first_lowest rec ->
  reaches rec d m r t tr s -> corner_kept tr.
Proof.
  intros rec d r t m tr s RO HM FL (o & E & H). pose proof RO as (R & M & Ht & Hr & FO). pose proof (proj1 (proj2 M)) as HR.
  destruct (nth_error (clouds rec) 0) as [c0|] eqn:Ec0; [|exfalso; apply nth_error_None in Ec0; destruct R as [_ N]; destruct (clouds rec); [now apply N|cbn in Ec0; lia]].
  assert (Q : corner_kept tr /\ (integrations tr <> 0%nat -> exists cb, wf d r t (om_grid (grid s)) cb /\ cb <> cb_empty d /\ Forall2 Z.le (cmin cb) (low r c0))); [|apply Q].
  induction H as [|tr s1 th ev s2 H [IH1 IH2] St]; [split; [intros ? ? []|now intros []]|].
  assert (Re : reaches rec d m r t tr s1) by (exists o; auto).
  destruct (prog_run rec d r t m tr s1 RO HM Re) as [I P].
  pose proof (p_alive _ _ _ _ _ _ (prog_step _ _ _ _ _ _ _ _ _ _ RO HM I P St)) as NP.
  destruct (step_grid rec s1 th ev s2 I NP St) as [(N & Z & G1 & G2 & G3 & G4)|(w & older & fuel & of & oo & Ew & Ep & Hf & Ho & HI & ->)].
  - split; [intros a b Hin; apply in_app_or in Hin; destruct Hin as [Hin|Hin]; [now apply IH1|now elim (N a b)]|].
    rewrite integrations_app, Z, Nat.add_0_r. intro K. destruct (IH2 K) as (cb & W & Ne & Lo). exists cb. split; [|auto].
    apply (wf_same d r t (om_grid (grid s1))); try congruence. rewrite G1. apply (wf_storage _ _ _ _ _ W).
  - destruct P as [PA (L & cbP & SC & ST & LI & WP & NC) PF].
    assert (Pe : pend s1 = [(w_origin w, w_cloud w)]) by (unfold pend; now rewrite Ew, Ep).
    assert (F : frame_ok d r (w_origin w) (w_cloud w)) by (apply PF; rewrite ST, Pe; apply in_or_app; right; now left).
    pose proof (frame_request d r _ _ HR F) as RQ.
    assert (Hin : In (w_cloud w) (clouds rec)).
    { destruct (cyclic_run rec d m r t tr s1 (length L) (w_origin w) (w_cloud w) R Re) as [_ C].
      - rewrite ST, Pe, nth_error_app2, Nat.sub_diag by lia. reflexivity.
      - eapply nth_error_In. exact C. }
    destruct (scanned_facts _ _ _ _ _ _ SC) as [_ Rg].
    destruct (om_integrate_spec _ _ _ _ _ _ _ HI) as [HI' _].
    destruct (integrate_spec _ _ _ _ _ _ _ _ Hf Ho (wf_storage _ _ _ _ _ WP) HI') as (g1 & free & occ & E3 & _ & _ & S' & Sh & B & R' & T' & _).
    assert (step1 : forall cb, wf d r t (om_grid (grid s1)) cb -> exists cb' db u, bounds_discretized (pc_bounds (w_cloud w)) r true = Ret db /\
      wf d r t (om_grid (grid s2)) cb' /\ cb' <> cb_empty d /\ cells_union d cb (cb_from_bounds db r) u /\ Forall2 (tile_below t) (cmin u) (cmin cb') /\
      sub_cells (cb_from_bounds db r) cb').
    { intros cb W. destruct (expand_step d r t _ cb _ f0 M W RQ) as (db & g'' & cb' & u & Edb & E' & W1 & U & B1 & _ & SB & _).
      assert (g'' = g1) by congruence. subst g''. exists cb', db, u. split; [assumption|].
      assert (W2 : wf d r t (om_grid (grid s2)) cb').
      { apply (wf_same d r t g1); try assumption.
        - rewrite R', (wf_resolution _ _ _ _ _ W). symmetry. apply (wf_resolution _ _ _ _ _ W1).
        - rewrite T', (wf_tile_size _ _ _ _ _ W). symmetry. apply (wf_tile_size _ _ _ _ _ W1). }
      split; [assumption|]. split; [|auto]. intros ->. destruct F as (_ & _ & _ & _ & _ & Io & So & _).
      destruct (proj2 (expand_room d r t _ _ f0 g1 (w_origin w) M Rg RQ E3 Io) So) as [x Gx].
      now apply (no_cells_zero d g1 (gm_cell_from_point g1 (w_origin w)) x (proj1 M) (wf_shape _ _ _ _ _ W1)). }
    assert (rq_low : forall db, bounds_discretized (pc_bounds (w_cloud w)) r true = Ret db -> Forall2 Z.le (low r c0) (cmin (cb_from_bounds db r))).
    { intros db Edb. rewrite (low_of d r _ db HR RQ Edb). unfold low. pose proof (FL c0 (w_cloud w) Ec0 Hin) as Lw.
      destruct RQ as (_ & Q1 & _).
      assert (RQ0 : Forall (within_cells (2 ^ 18) r) (bmin (pc_bounds c0))).
      { destruct (nth_error (origins rec) 0) as [o0|] eqn:Eo0.
        - rewrite Forall_forall in FO. specialize (FO _ (combine_nth rec 0 o0 c0 Eo0 Ec0)). apply (frame_request d r o0 c0 HR FO).
        - exfalso. apply nth_error_None in Eo0. destruct R as [RL RN]. rewrite RL in Eo0. destruct (clouds rec); [now apply RN|cbn in Eo0; lia]. }
      clear - HR Lw Q1 RQ0. induction Lw as [|x y l l' Hxy Lw IH]; [constructor|]. inversion Q1 as [|? ? Wy Q1']; inversion RQ0 as [|? ? Wx Q0']; subst.
      cbn [map]. constructor; [now apply disc_lower|]. now apply IH. }
    rewrite integrations_app. cbn [integrations].
    destruct (Nat.eq_dec (integrations tr) 0) as [Z|Z].
    + (* the first integration *)
      assert (L0 : L = []) by (destruct L; [reflexivity|cbn [length] in LI; lia]).
      pose proof (scanned_nothing d r t m (grid s1) L M SC L0) as W0.
      assert (Cw : w_cloud w = c0).
      { destruct (cyclic_run rec d m r t tr s1 0 (w_origin w) (w_cloud w) R Re) as [_ C].
        - rewrite ST, Pe, L0. reflexivity.
        - rewrite Nat.mod_0_l in C; [congruence|]. destruct R as [_ RN]. destruct (clouds rec); [now elim RN|discriminate]. }
      split.
      * intros a b Hab. apply in_app_or in Hab. destruct Hab as [Hab|[Hab|[]]]; [now apply IH1|]. injection Hab as <- <-. right.
        intros c v. apply (no_cells_zero d); [apply M|apply (wf_shape _ _ _ _ _ W0)].
      * intros _. destruct (step1 _ W0) as (cb' & db & u & Edb & W2 & Ne & _ & _ & [SB _]). exists cb'. split; [assumption|]. split; [assumption|].
        rewrite (low_of d r _ db HR RQ Edb), Cw in SB. exact SB.
    + destruct (IH2 Z) as (cb & W & Ne & Lo). destruct (step1 _ W) as (cb' & db & u & Edb & W2 & Ne' & [_ U] & B1 & _). rewrite (U Ne) in B1. cbn [cmin] in B1.
      assert (Ecm : cmin cb' = cmin cb).
      { apply (below_same t _ (cmin (cb_from_bounds db r))); [|exact B1|apply (wf_aligned _ _ _ _ _ W)|apply M].
        eapply Forall2_le_trans; [exact Lo|]. now apply rq_low. }
      split.
      * intros a b Hab. apply in_app_or in Hab. destruct Hab as [Hab|[Hab|[]]]; [now apply IH1|]. injection Hab as <- <-. left.
        rewrite (wf_bounds _ _ _ _ _ W), (wf_bounds _ _ _ _ _ W2), !(bfc_map d) by (apply (wf_ordered _ _ _ _ _ W) || apply (wf_ordered _ _ _ _ _ W2)).
        cbn [bmin]. now rewrite Ecm.
      * intros _. exists cb'. split; [assumption|]. split; [assumption|]. rewrite Ecm. exact Lo.
Qed.

(** ** The display of a static scene *)
Lemma displayed_static : forall rec d r t m o st th ev w b vs, recording_ok d r t rec -> limit_near (max_range m) r -> first_lowest rec ->
  om_new d m r t = Ret o -> execution rec o st th ev -> fair rec st th -> length w = d -> signs_ok m ->
  Forall2 (says (max_range m) r w) (combine (origins rec) (clouds rec)) vs -> Forall (fun v => v = None \/ v = Some b) vs -> Exists (fun v => v <> None) vs ->
  (if b then fltb (occupied_threshold_logodds m) (evidence m f0 true) = true else fle f0 (occupied_threshold_logodds m)) ->
  fltb (occupied_threshold_logodds m) f0 = false ->
  exists N, forall n, (N <= n)%nat -> exists cb, covers_cells d r t (om_grid (grid (st n))) cb /\ in_box cb w /\
    ((exists p, In (map2 Z.sub w (cmin cb), p) (tracked (st n))) <-> b = true) /\
    (forall p, In (map2 Z.sub w (cmin cb), p) (tracked (st n)) -> near_cell r w p).
Proof.
  intros rec d r t m o st th ev w b vs RO HM FL E X Fa Lw SG Sv Sb Sx TH TN.
  apply (displayed rec d r t m o st th ev RO HM E X Fa w b vs Lw SG Sv Sb Sx TH); [|assumption].
  intro n. apply (corner_static rec d r t m _ (st n) RO HM FL). now apply (exec_reaches rec d m r t o st th ev n E X).
Qed.
Lemma displayed_in_program : forall ln rec o st th ev w b vs, ln_special ln -> ln_monotone ln -> (forall x, fltb f1 x = true -> fltb f0 (ln x) = true) ->
  om_default 3 ln = Ret o -> recording_ok 3 DEFAULT_RESOLUTION DEFAULT_TILE_SIZE rec -> first_lowest rec ->
  execution rec o st th ev -> fair rec st th -> length w = 3%nat ->
  Forall2 (says DEFAULT_MAX_RANGE DEFAULT_RESOLUTION w) (combine (origins rec) (clouds rec)) vs ->
  Forall (fun v => v = None \/ v = Some b) vs -> Exists (fun v => v <> None) vs ->
  exists N, forall n, (N <= n)%nat -> exists cb, covers_cells 3 DEFAULT_RESOLUTION DEFAULT_TILE_SIZE (om_grid (grid (st n))) cb /\ in_box cb w /\
    ((exists p, In (map2 Z.sub w (cmin cb), p) (tracked (st n))) <-> b = true) /\
    (forall p, In (map2 Z.sub w (cmin cb), p) (tracked (st n)) -> near_cell DEFAULT_RESOLUTION w p).
Proof.
  intros ln rec o st th ev w b vs S Mo Po E RO FL X Fa Lw Sv Sb Sx.
  destruct (default_start ln o E) as (m & Em & En). destruct (default_detects ln S Mo Po) as (m' & Em' & SG & T1 & T2 & HM).
  rewrite Em in Em'. injection Em' as <-.
  assert (MR : max_range m = DEFAULT_MAX_RANGE).
  { clear - Em. unfold lidar_default, lidar_new, oassert in Em.
    repeat match type of Em with context [is_probability ?p] => replace (is_probability p) with true in Em by (vm_compute; reflexivity) end. cbn [obind] in Em.
    injection Em as <-. reflexivity. }
  apply (displayed_static rec 3 _ _ m o st th ev w b vs); try assumption.
  - now rewrite MR.
  - destruct b; assumption.
  - now apply (default_threshold ln m).
Qed.
