(** The whole program on recordings in range. *)
From Coq Require Import ZArith List Bool Reals Lra Lia Permutation.
From Flocq Require Import Core BinarySingleNaN.
From Verif Require Import Base F32 FloatFacts RoundError Arith Geom NdArray GridMap RayCaster NoiseModel Spec SpecMap SpecNoise MathProofs ConverterProofs GeomProofs BoundsProofs CloudProofs NdProofs GridProofs ExpandProofs MapProofs RayProofs CastProofs NoiseProofs TransformProofs ScanProofs Viz SpecViz VizProofs MainProofs.
Open Scope Z_scope.

(** ** Fuel *)
Lemma rays_fuel : forall fuel fuel' o cloud b r m, (fuel <= fuel')%nat -> cast_rays fuel o cloud b r m <> NoFuel ->
  cast_rays fuel' o cloud b r m = cast_rays fuel o cloud b r m.
Proof.
  intros fuel fuel' o cloud b r m L. unfold cast_rays. generalize (@nil cell, @nil cell) as acc.
  induction (pc_points cloud) as [|p l IH]; intros acc N; [reflexivity|]. cbn [ofold] in *.
  assert (N' : cast_ray F32A fuel o p (bmin b) r m <> NoFuel) by (intro K; apply N; rewrite K; reflexivity).
  rewrite (cast_fuel fuel fuel' o p (bmin b) r m L N').
  destruct (cast_ray F32A fuel o p (bmin b) r m) as [x| |]; cbn [obind] in *; [|reflexivity|reflexivity]. now apply IH.
Qed.
Lemma integrate_fuel : forall fuel fuel' of oo o p cloud, (fuel <= fuel')%nat -> om_integrate fuel of oo o p cloud <> NoFuel ->
  om_integrate fuel' of oo o p cloud = om_integrate fuel of oo o p cloud.
Proof.
  intros fuel fuel' of oo o p cloud L N. unfold om_integrate, integrate_point_cloud in *.
  destruct (gm_expand_bounds _ _ _) as [g1| |]; [|reflexivity|reflexivity]. cbn [obind] in *.
  rewrite (rays_fuel fuel fuel'); [reflexivity|assumption|]. intro K. rewrite K in N. now apply N.
Qed.

(** ** Small maps *)
Lemma map2_pick : forall (P : f32 -> Prop) (f : f32 -> f32 -> f32) l l', (forall x y, f x y = x \/ f x y = y) ->
  Forall P l -> Forall P l' -> Forall P (map2 f l l').
Proof.
  intros P f l. induction l as [|x l IH]; intros [|y l'] H F F'; cbn [map2]; try constructor.
  - inversion F; inversion F'; subst. destruct (H x y) as [-> | ->]; assumption.
  - inversion F; inversion F'; subst. now apply IH.
Qed.
Lemma bounds_pick : forall (P : f32 -> Prop) cloud, P f0 -> Forall P (mdata cloud) ->
  Forall P (bmin (pc_bounds cloud)) /\ Forall P (bmax (pc_bounds cloud)).
Proof.
  intros P cloud P0 F. apply points_all in F. unfold pc_bounds.
  assert (I : Forall P (bmin (bounds_empty (nrows cloud))) /\ Forall P (bmax (bounds_empty (nrows cloud)))).
  { unfold bounds_empty, origin. cbn. split; apply Forall_forall; intros x Hx; apply repeat_spec in Hx; subst; assumption. }
  revert I. generalize (bounds_empty (nrows cloud)). induction F as [|p l Hp F IH]; intros b I; cbn [fold_left]; [exact I|].
  apply IH. destruct I as [I1 I2]. unfold bounds_add_point. cbn [bmin bmax]. split; apply map2_pick; try assumption.
  - intros x y. destruct (fltb x y); auto.
  - intros x y. destruct (fltb y x); auto.
Qed.

Lemma disc_near_n : forall d r b db n, res_ok r -> ordered d b -> 0 <= n <= 2 ^ 18 ->
  Forall (within_cells n r) (bmin b) -> Forall (within_cells n r) (bmax b) -> bounds_discretized b r true = Ret db ->
  cb_near (n + 2) (mkCB (map (wc r) (bmin db)) (map (wc r) (bmax db))).
Proof.
  intros d r b db n HR O Hn N1 N2 E. pose proof (res_ok_pos r HR) as P.
  destruct (bounds_discretized_spec d b r true (proj1 HR) P O) as (db' & E' & O' & S & M1 & M2).
  rewrite E in E'. injection E' as <-.
  destruct S as [S1 S2]. pose proof HR as [Fr Hr]. unfold real in Hr.
  assert (Hn' : (0 <= IZR n <= 262144)%R) by (split; [now apply IZR_le|change 262144%R with (IZR (2 ^ 18)); now apply IZR_le]).
  assert (small : forall x, (Rabs x <= (IZR n + 1) * B2R r)%R -> (Rabs (rnd x) < bp 128)%R).
  { intros x Hx. apply rnd_abs_lt_128. eapply Rle_trans; [exact Hx|].
    change 127 with (100 + 27). rewrite bpow_plus. change (bp 27) with 134217728%R. pose proof (bpow_gt_0 radix2 100). nra. }
  assert (IZ : forall z, (Rabs (IZR z) <= IZR n + 1 + / 4 + 3 / 4)%R -> Z.abs z <= n + 2).
  { intros z Hz. apply le_IZR. rewrite abs_IZR, plus_IZR. eapply Rle_trans; [exact Hz|]. lra. }
  assert (RB : forall x, (Rabs x <= (IZR n + 1) * B2R r)%R -> (Rabs (rnd x) <= (IZR n + 1 + / 4) * B2R r)%R).
  { intros x Hx. pose proof (rnd_err x) as A. replace (rnd x) with (rnd x - x + x)%R by ring.
    eapply Rle_trans; [apply Rabs_triang|]. pose proof (bp_m150 (B2R r) (proj1 Hr)).
    assert (Q : ((IZR n + 1) * B2R r <= 262145 * B2R r)%R) by (apply Rmult_le_compat_r; lra).
    unfold u32 in *. lra. }
  split; cbn [cmin cmax]; apply Forall_forall; intros z Hz; apply in_map_iff in Hz; destruct Hz as (x & <- & Hx).
  + assert (Q : exists v, within_cells n r v /\ fle (fsub v r) x /\ fle x v).
    { clear -N1 M1 S1 Hx. revert N1 S1 Hx. induction M1 as [|v w l l' H M IH]; intros N1 S1 Hx; [destruct Hx|].
      inversion N1; inversion S1; subst. destruct Hx as [->|Hx]; [exists v; auto|apply IH; auto]. }
    destruct Q as (v & [Fv Wv] & Q1 & Q2). unfold real in Wv.
    destruct (fsub_fin v r Fv Fr) as [Fs Es].
    { apply small. eapply Rle_trans; [apply Rabs_triang|]. rewrite Rabs_Ropp, (Rabs_pos_eq (B2R r)) by lra. lra. }
    assert (A1 : Z.abs (wc r (fsub v r)) <= n + 2).
    { apply IZ. apply wc_bound; try assumption. lra. unfold real. rewrite Es. apply RB.
      eapply Rle_trans; [apply Rabs_triang|]. rewrite Rabs_Ropp, (Rabs_pos_eq (B2R r)) by lra. lra. }
    assert (A2 : Z.abs (wc r v) <= n + 2).
    { apply IZ. apply wc_bound; try assumption. lra. unfold real. lra. }
    pose proof (wc_mono r _ _ HR Q1). pose proof (wc_mono r _ _ HR Q2). lia.
  + assert (Q : exists v, within_cells n r v /\ fle v x /\ fle x (fadd v r)).
    { clear -N2 M2 S2 Hx. revert N2 S2 Hx. induction M2 as [|v w l l' H M IH]; intros N1 S1 Hx; [destruct Hx|].
      inversion N1; inversion S1; subst. destruct Hx as [->|Hx]; [exists v; auto|apply IH; auto]. }
    destruct Q as (v & [Fv Wv] & Q1 & Q2). unfold real in Wv.
    destruct (fadd_fin v r Fv Fr) as [Fs Es].
    { apply small. eapply Rle_trans; [apply Rabs_triang|]. rewrite (Rabs_pos_eq (B2R r)) by lra. lra. }
    assert (A1 : Z.abs (wc r (fadd v r)) <= n + 2).
    { apply IZ. apply wc_bound; try assumption. lra. unfold real. rewrite Es. apply RB.
      eapply Rle_trans; [apply Rabs_triang|]. rewrite (Rabs_pos_eq (B2R r)) by lra. lra. }
    assert (A2 : Z.abs (wc r v) <= n + 2).
    { apply IZ. apply wc_bound; try assumption. lra. unfold real. lra. }
    pose proof (wc_mono r _ _ HR Q1). pose proof (wc_mono r _ _ HR Q2). lia.
Qed.

Lemma below_near : forall t n u l, 1 <= t -> 0 <= n -> Forall2 (tile_below t) u l ->
  Forall (fun x => Z.abs x <= n \/ (t | x) /\ Z.abs x <= n + t) u -> Forall (fun x => Z.abs x <= n + t) l.
Proof.
  intros t n u l Ht Hn H. induction H as [|c x u l [D [B1 B2]] H IH]; intro F; constructor; inversion F as [|? ? Fc F']; subst; [|now apply IH].
  destruct Fc as [Fc|[Dc Fc]]; [lia|]. assert (x = c); [|subst; exact Fc].
  destruct D as [a ->], Dc as [b ->]. assert (a * t <= b * t < (a + 1) * t) by lia. assert (a = b) by nia. now subst.
Qed.
Lemma above_near : forall t n u l, 1 <= t -> 0 <= n -> Forall2 (tile_above t) u l ->
  Forall (fun x => Z.abs x <= n \/ (t | x) /\ Z.abs x <= n + t) u -> Forall (fun x => Z.abs x <= n + t) l.
Proof.
  intros t n u l Ht Hn H. induction H as [|c x u l [D [B1 B2]] H IH]; intro F; constructor; inversion F as [|? ? Fc F']; subst; [|now apply IH].
  destruct Fc as [Fc|[Dc Fc]]; [lia|]. assert (x = c); [|subst; exact Fc].
  destruct D as [a ->], Dc as [b ->]. assert ((a - 1) * t < b * t <= a * t) by lia. assert (a = b) by nia. now subst.
Qed.
Lemma pick_near : forall (f : Z -> Z -> Z) t n l l', (forall x y, f x y = x \/ f x y = y) -> Forall (Z.divide t) l -> Forall (fun x => Z.abs x <= n + t) l ->
  Forall (fun x => Z.abs x <= n) l' -> Forall (fun x => Z.abs x <= n \/ (t | x) /\ Z.abs x <= n + t) (map2 f l l').
Proof.
  intros f t n l. induction l as [|x l IH]; intros [|y l'] H D F F'; cbn [map2]; try constructor.
  - inversion D; inversion F; inversion F'; subst. destruct (H x y) as [-> | ->]; auto.
  - inversion D; inversion F; inversion F'; subst. now apply IH.
Qed.

(** Expansion by requests in range keeps a map small. *)
Lemma expand_small : forall d r t n (g : grid_map f32) cb b v g', map_range d r t -> wf d r t g cb -> 0 <= n <= 2 ^ 18 -> ordered d b ->
  Forall (within_cells n r) (bmin b) -> Forall (within_cells n r) (bmax b) -> cb_near (n + 2 + t) cb ->
  gm_expand_bounds g b v = Ret g' -> exists cb', wf d r t g' cb' /\ cb_near (n + 2 + t) cb'.
Proof.
  intros d r t n g cb b v g' M W Hn O N1 N2 NC E. pose proof (proj1 (proj2 M)) as HR. pose proof (res_ok_pos r HR) as P. unfold real in P.
  assert (Q : request_ok d r b).
  { assert (IZR n <= IZR (2 ^ 18))%R by (apply IZR_le; lia).
    split; [assumption|]. split; (eapply Forall_impl; [|eassumption]); intros x [Fx Wx]; (split; [assumption|]);
    (eapply Rle_trans; [exact Wx|]); unfold real; apply Rmult_le_compat_r; lra. }
  destruct (expand_step d r t g cb b v M W Q) as (db & g'' & cb' & u & Edb & E' & W' & [U1 U2] & B1 & B2 & _).
  assert (g'' = g') by congruence. subst g''. exists cb'. split; [assumption|].
  pose proof (disc_near_n d r b db n HR O Hn N1 N2 Edb) as ND.
  destruct (disc_near d r b db HR Q Edb) as ((D1 & D2 & _) & _).
  rewrite (from_bounds_map d) in U1, U2 by assumption. destruct ND as [ND1 ND2]. cbn [cmin cmax] in *.
  destruct (wf_aligned _ _ _ _ _ W) as [A1 A2]. destruct NC as [NC1 NC2]. destruct M as (_ & _ & Ht).
  assert (X : Forall (fun x => Z.abs x <= n + 2 \/ (t | x) /\ Z.abs x <= n + 2 + t) (cmin u) /\
              Forall (fun x => Z.abs x <= n + 2 \/ (t | x) /\ Z.abs x <= n + 2 + t) (cmax u)).
  { destruct (cb_eqb cb (cb_empty d)) eqn:Ec.
    - apply cb_eqb_true in Ec. rewrite (U1 Ec). cbn [cmin cmax]. split; (eapply Forall_impl; [|eassumption]); cbn; auto.
    - assert (Nc : cb <> cb_empty d) by (intro K; apply cb_eqb_true in K; congruence). rewrite (U2 Nc). cbn [cmin cmax].
      split; apply pick_near; try assumption; intros; lia. }
  destruct X as [X1 X2]. split; [eapply below_near|eapply above_near]; try eassumption; lia.
Qed.

Lemma within_weaken : forall n m r x, (0 <= real r)%R -> n <= m -> within_cells n r x -> within_cells m r x.
Proof.
  intros n m r x P L [F W]. split; [assumption|]. eapply Rle_trans; [exact W|]. apply Rmult_le_compat_r; [assumption|]. now apply IZR_le.
Qed.

Lemma frame_box : forall d r o cloud, res_ok r -> frame_ok d r o cloud -> ordered d (pc_bounds cloud) /\
  Forall (within_cells (2 ^ 14) r) (bmin (pc_bounds cloud)) /\ Forall (within_cells (2 ^ 14) r) (bmax (pc_bounds cloud)).
Proof.
  intros d r o cloud HR (OK & Nd & _ & _ & Wd & _). pose proof (res_ok_pos r HR) as P. change (0 < real r)%R in P.
  destruct (pc_bounds_spec cloud OK) as (O & _). rewrite Nd in O.
  assert (W0 : within_cells (2 ^ 14) r f0) by (split; [reflexivity|]; change (real f0) with 0%R; rewrite Rabs_R0; apply Rmult_le_pos; [apply IZR_le; lia|lra]).
  destruct (bounds_pick (within_cells (2 ^ 14) r) cloud W0 Wd) as [B1 B2]. auto.
Qed.
Lemma frame_request : forall d r o cloud, res_ok r -> frame_ok d r o cloud -> request_ok d r (pc_bounds cloud).
Proof.
  intros d r o cloud HR F. pose proof (res_ok_pos r HR) as P. change (0 < real r)%R in P. destruct (frame_box d r o cloud HR F) as (O & B1 & B2).
  split; [assumption|]. split; (eapply Forall_impl; [|eassumption]); intros x; apply within_weaken; try lra; lia.
Qed.

(** A frame in range can be integrated into every small map. *)
Definition small (t : Z) : Z := 2 ^ 14 + 2 + t.
Lemma frame_scan : forall d r t (g : grid_map f32) cb o cloud, map_range d r t -> t <= 2 ^ 13 -> (bpow radix2 (-30) <= real r <= bpow radix2 30)%R ->
  reachable d r t g -> wf d r t g cb -> cb_near (small t) cb -> frame_ok d r o cloud -> scan_ok d r g o cloud.
Proof.
  intros d r t g cb o cloud M Ht Hr Rg W NC F. pose proof (proj1 (proj2 M)) as HR. destruct (frame_box d r o cloud HR F) as (O & B1 & B2).
  pose proof (frame_request d r o cloud HR F) as RQ. destruct F as (OK & Nd & Lo & Wo & Wd & Io & So & Hp).
  pose proof (res_ok_pos r HR) as P. change (0 < real r)%R in P.
  split; [assumption|]. split; [assumption|]. split; [assumption|]. split; [assumption|]. intros g1 E.
  destruct (expand_small d r t (2 ^ 14) g cb _ f0 g1 M W ltac:(lia) O B1 B2 NC E) as (cb1 & W1 & NC1).
  split.
  - destruct (proj2 (expand_room d r t g _ f0 g1 o M Rg RQ E Io) So) as [x Gx].
    eapply gm_get_range; [apply (wf_storage _ _ _ _ _ W1)|apply cfp_in_isize|exact Gx].
  - intros p Hin. destruct (Hp p Hin) as (S & A & L & C). split; [assumption|]. split; [|assumption].
    pose proof (wf_covers _ _ _ _ _ M W1) as CC. pose proof (cc_min _ _ _ _ _ CC) as AC. destruct NC1 as [NC1 _].
    assert (Wb : Forall (within_cells (2 ^ 15) r) (bmin (gm_bounds g1))).
    { clear - AC NC1 P Ht. induction AC as [|k x ks l [Fx Ax] AC IH]; constructor; inversion NC1 as [|? ? Nk NC]; subst; [|now apply IH].
      split; [assumption|]. assert (Kb : (Rabs (IZR k) <= 24578)%R) by (rewrite <- abs_IZR; apply IZR_le; lia).
      change (bpow radix2 (-24)) with (/ 16777216)%R in Ax. replace (real x) with ((real x - IZR k * real r) + IZR k * real r)%R by ring.
      eapply Rle_trans; [apply Rabs_triang|]. rewrite (Rabs_mult (IZR k)), (Rabs_pos_eq (real r)) by lra.
      assert (Rabs (IZR k) * real r <= 24578 * real r)%R by (apply Rmult_le_compat_r; lra). change (IZR (2 ^ 15)) with 32768%R. lra. }
    assert (Wp : Forall (within_cells (2 ^ 14) r) p) by (apply points_all in Wd; rewrite Forall_forall in Wd; now apply Wd).
    assert (up : forall n l, (2 ^ 14 <= n) -> Forall (within_cells (2 ^ 14) r) l -> Forall (within_cells n r) l).
    { intros n l Hn F. eapply Forall_impl; [|exact F]. intros x. apply within_weaken; [lra|assumption]. }
    assert (Wb' : Forall (within_cells (2 ^ 20) r) (bmin (gm_bounds g1))).
    { eapply Forall_impl; [|exact Wb]. intros x. apply within_weaken; [lra|lia]. }
    assert (Fr : finite r) by apply HR.
    unfold ray_short, ray_range. repeat split; try assumption; try apply Hr; try (apply up; [lia|assumption]).
Qed.

(** ** One integration *)
Lemma integrate_frame : forall d r t m o L cb origin cloud, map_range d r t -> t <= 2 ^ 13 -> (bpow radix2 (-30) <= real r <= bpow radix2 30)%R ->
  limit_near (max_range m) r -> scanned d r t m o L -> wf d r t (om_grid o) cb -> cb_near (small t) cb -> frame_ok d r origin cloud ->
  forall fuel of oo, is_order of -> is_order oo ->
  om_integrate fuel of oo o origin cloud <> Panic /\
  ((3072 <= fuel)%nat -> exists o', om_integrate fuel of oo o origin cloud = Ret o') /\
  (forall o', om_integrate fuel of oo o origin cloud = Ret o' -> scanned d r t m o' (L ++ [(origin, cloud)]) /\
     exists cb', wf d r t (om_grid o') cb' /\ cb_near (small t) cb').
Proof.
  intros d r t m o L cb origin cloud M Ht Hr HM S W NC FO fuel of oo Hf Ho.
  destruct (scanned_facts _ _ _ _ _ _ S) as [Em Rg].
  pose proof (frame_scan d r t (om_grid o) cb origin cloud M Ht Hr Rg W NC FO) as OK.
  set (fuel' := Nat.max fuel 3072).
  destruct (scans_continue d r t m o L fuel' of oo origin cloud M HM S Hf Ho OK ltac:(lia)) as (o1 & E1).
  assert (X : om_integrate fuel of oo o origin cloud <> NoFuel -> om_integrate fuel of oo o origin cloud = Ret o1).
  { intro N. rewrite <- E1. symmetry. apply integrate_fuel; [lia|assumption]. }
  split; [intro K; rewrite X in K; congruence|]. split.
  - intro F. exact (scans_continue d r t m o L fuel of oo origin cloud M HM S Hf Ho OK F).
  - intros o' E. assert (o1 = o') by (rewrite X in E by congruence; congruence). subst o1.
    split; [apply (scanned_next d r t m o L fuel' of oo); try assumption; lia|].
    apply om_integrate_spec in E. destruct E as [E _].
    destruct (integrate_spec _ _ _ _ _ _ _ _ Hf Ho (wf_storage _ _ _ _ _ W) E) as (g1 & free & occ & E3 & _ & _ & S' & Sh & B & R' & T' & _).
    destruct (frame_box d r origin cloud (proj1 (proj2 M)) FO) as (O & B1 & B2).
    destruct (expand_small d r t (2 ^ 14) (om_grid o) cb _ f0 g1 M W ltac:(lia) O B1 B2 NC E3) as (cb1 & W1 & NC1).
    exists cb1. split; [|assumption]. apply (wf_same d r t g1); try assumption.
    + rewrite R', (wf_resolution _ _ _ _ _ W). symmetry. apply (wf_resolution _ _ _ _ _ W1).
    + rewrite T', (wf_tile_size _ _ _ _ _ W). symmetry. apply (wf_tile_size _ _ _ _ _ W1).
Qed.

(** ** The whole run *)
Definition pend (s : state) : list (point * matrix) :=
  match workers s with
  | w :: _ => match w_pc w with WLockGrid | WTrack | WIntegrate => [(w_origin w, w_cloud w)] | _ => [] end
  | [] => []
  end.
Record Prog (d : nat) (r : f32) (t : Z) (m : lidar) (tr : list event) (s : state) : Prop := {
  p_alive : cur s <> WPanicked;
  p_map : exists L cb, scanned d r t m (grid s) L /\ started tr = L ++ pend s /\ length L = integrations tr /\
    wf d r t (om_grid (grid s)) cb /\ cb_near (small t) cb;
  p_frames : forall o c, In (o, c) (started tr) -> frame_ok d r o c
}.

Lemma integrations_app : forall a b, integrations (a ++ b) = (integrations a + integrations b)%nat.
Proof. induction a as [|e a IH]; intros b; [reflexivity|]. destruct e; cbn [app integrations]; rewrite IH; reflexivity. Qed.

Lemma prog_initial : forall d r t m o, map_range d r t -> om_new d m r t = Ret o -> Prog d r t m [] (initial o).
Proof.
  intros d r t m o M E. constructor; [discriminate| |intros ? ? []].
  exists [], (cb_empty d). split; [now apply scanned_new|]. split; [reflexivity|]. split; [reflexivity|].
  unfold om_new in E. destruct (gm_new _ _ _ _) as [g| |] eqn:G; try discriminate. cbn [obind] in E. injection E as <-. cbn [grid initial om_grid].
  destruct (zero_ordered d t) as (O & T & N). rewrite (empty_bounds d r) in G by apply M.
  split; [exact (proj1 (wf_new _ _ _ _ _ _ M O T N G))|]. destruct M as (_ & _ & Ht). unfold small.
  unfold cb_near, cb_empty, cell_origin. cbn [cmin cmax]. split; apply Forall_forall; intros x Hx; apply repeat_spec in Hx; subst x; change (Z.abs 0) with 0; lia.
Qed.

Lemma combine_nth : forall (rec : recording) i o c, nth_error (origins rec) i = Some o -> nth_error (clouds rec) i = Some c ->
  In (o, c) (combine (origins rec) (clouds rec)).
Proof.
  intros [os cs] i o c. cbn [origins clouds]. revert cs i. induction os as [|x os IH]; intros [|y cs] [|i] H K; try discriminate H; try discriminate K.
  - injection H as ->. injection K as ->. now left.
  - right. now apply (IH cs i).
Qed.

Lemma prog_step : forall rec d r t m tr s th ev s', recording_ok d r t rec -> limit_near (max_range m) r -> Inv rec s -> Prog d r t m tr s ->
  step rec s th ev s' -> Prog d r t m (tr ++ ev) s'.
Proof.
  intros rec d r t m tr s th ev s' (R & M & Ht & Hr & FO) HM I [PA (L & cb & SC & ST & LI & W & NC) PF] H.
  destruct H as [ev s' H|newer w older ev pc s' Ew H].
  - assert (X : (grid s' = grid s /\ workers s' = workers s /\ started ev = [] /\ integrations ev = 0%nat) \/
      exists o c, render s = RSpawn /\ nth_error (origins rec) (index s) = Some o /\ nth_error (clouds rec) (index s) = Some c /\ ev = [EStart o c] /\
        grid s' = grid s /\ workers s' = mkWorker o c WLockGrid :: workers s).
    { destruct H; try (left; repeat split; reflexivity). right. exists o, c. auto 10. }
    destruct X as [(G & Wk & Se & Ie)|(o & c & Er & No & Nc & -> & G & Wk)].
    + constructor.
      * unfold cur. rewrite Wk. exact PA.
      * exists L, cb. rewrite G, started_app, integrations_app, Se, Ie, app_nil_r, Nat.add_0_r. unfold pend in *. rewrite Wk. auto.
      * rewrite started_app, Se, app_nil_r. exact PF.
    + assert (C : cur s = WDone).
      { pose proof (i_phase _ _ I) as P. rewrite Er in P. destruct (cur s); try discriminate P. reflexivity. }
      assert (Pe : pend s = []).
      { unfold pend, cur in *. destruct (workers s) as [|w ws]; [reflexivity|]. rewrite C. reflexivity. }
      rewrite Pe, app_nil_r in ST.
      constructor.
      * unfold cur. rewrite Wk. discriminate.
      * exists L, cb. rewrite G, started_app, integrations_app. unfold pend. rewrite Wk. cbn. rewrite ST, Nat.add_0_r. auto.
      * rewrite started_app. cbn [started]. intros o' c' Hin. apply in_app_or in Hin. destruct Hin as [Hin|[Hin|[]]]; [now apply PF|].
        injection Hin as <- <-. rewrite Forall_forall in FO. exact (FO (o, c) (combine_nth rec _ _ _ No Nc)).
  - pose proof (worker_newest _ _ _ _ _ _ _ _ I Ew H) as ->. cbn [app] in *.
    assert (Fw : forall x, pend s = [x] -> frame_ok d r (fst x) (snd x)).
    { intros [o c] Hx. apply PF. rewrite ST, Hx. apply in_or_app. right. now left. }
    pose proof (i_grid_lock _ _ I) as IG. pose proof (i_reports_lock _ _ I) as IR.
    unfold pend, cur, num in *. rewrite Ew in *. cbn [tl] in *.
    assert (same : forall g', storage_ok (gm_data g') -> nd_shape (gm_data g') = nd_shape (gm_data (om_grid (grid s))) -> gm_bounds g' = gm_bounds (om_grid (grid s)) ->
      gm_resolution g' = gm_resolution (om_grid (grid s)) -> gm_tile_size g' = gm_tile_size (om_grid (grid s)) -> wf d r t g' cb) by (intros; eapply wf_same; eassumption).
    pose proof (wf_storage _ _ _ _ _ W) as Sto.
    destruct H as [Hp HO HP|Hp HO HP|Hp|fuel of oo o' Hp Hf Ho HI|fuel of oo o' Hp Hf Ho HI|Hp HO HP|Hp HO HP|Hp|Hp|Hp|Hp|Hp|Hp]; rewrite Hp in *;
      try (exfalso; rewrite IG in HP; discriminate HP);
      try (exfalso; rewrite IR in HP; destruct (render s); discriminate HP).
    all: try (constructor; unfold cur, pend; fields; cbn [w_pc at_pc w_origin w_cloud] in *; [discriminate| |rewrite started_app; cbn [started]; rewrite app_nil_r; exact PF];
      exists L, cb; rewrite started_app, integrations_app; cbn [started integrations]; rewrite ?app_nil_r, ?Nat.add_0_r in *;
      split; [exact SC || (apply scanned_track; exact SC) || (apply scanned_clear; exact SC)|]; split; [exact ST|]; split; [exact LI|]; split; [|exact NC];
      exact W || (apply same; (exact Sto || reflexivity)); fail).
    + destruct (integrate_frame d r t m (grid s) L cb _ _ M Ht Hr HM SC W NC (Fw _ eq_refl) fuel of oo Hf Ho) as (_ & _ & X).
      destruct (X o' HI) as (S' & cb' & W' & N').
      constructor; unfold cur, pend; fields; cbn [w_pc at_pc w_origin w_cloud] in *; [discriminate| |rewrite started_app; cbn [started]; rewrite app_nil_r; exact PF].
      exists (L ++ [(w_origin w, w_cloud w)]), cb'. rewrite started_app, integrations_app, app_length. cbn [started integrations length]. rewrite !app_nil_r.
      split; [exact S'|]. split; [exact ST|]. split; [lia|]. split; assumption.
    + exfalso. apply (proj1 (integrate_frame d r t m (grid s) L cb _ _ M Ht Hr HM SC W NC (Fw _ eq_refl) fuel of oo Hf Ho)). exact HI.
Qed.

Lemma prog_run : forall rec d r t m tr s, recording_ok d r t rec -> limit_near (max_range m) r -> reaches rec d m r t tr s -> Inv rec s /\ Prog d r t m tr s.
Proof.
  intros rec d r t m tr s RO HM (o & E & H). pose proof RO as (R & M & _).
  induction H as [|tr s1 th ev s2 H IH St].
  - split; [eapply inv_initial; eassumption|now apply prog_initial].
  - destruct IH as [I P]. split; [eapply inv_step; eassumption|eapply prog_step; eassumption].
Qed.

Lemma id_order : is_order (fun l => l).
Proof. intro s. apply Permutation_refl. Qed.

(** Every worker that has not ended can go on. *)
Lemma prog_moves : forall rec d r t m tr s w, recording_ok d r t rec -> limit_near (max_range m) r -> Inv rec s -> Prog d r t m tr s ->
  In w (workers s) -> alive w = true -> moves rec (Worker (num s)) s.
Proof.
  intros rec d r t m tr s w (R & M & Ht & Hr & FO) HM I [PA (L & cb & SC & ST & LI & W & NC) PF] Hin A.
  pose proof (i_others _ _ I) as IO. unfold num. destruct (workers s) as [|w0 ws] eqn:Ew; [contradiction|]. cbn [tl] in *.
  destruct Hin as [<-|Hin]; [|exfalso; rewrite Forall_forall in IO; unfold alive in A; rewrite (IO w Hin) in A; discriminate].
  destruct (w_pc w0) eqn:Ep.
  all: try (destruct (worker_moves rec s w0 I) as (k & ev & s' & St); [rewrite Ew; now left|exact A|rewrite Ep; discriminate|];
    inversion St as [|newer w older ? pc s1 E Wk]; subst; pose proof (worker_newest _ _ _ _ _ _ _ _ I E Wk) as ->;
    rewrite Ew in E; injection E as <- <-; exists ev, (set_workers s1 ([] ++ at_pc w0 pc :: ws)); exact St).
  assert (F : frame_ok d r (w_origin w0) (w_cloud w0)).
  { apply PF. rewrite ST. apply in_or_app. right. unfold pend. rewrite Ew, Ep. now left. }
  destruct (integrate_frame d r t m (grid s) L cb _ _ M Ht Hr HM SC W NC F 3072 (fun l => l) (fun l => l) id_order id_order) as (_ & X & _).
  destruct (X (le_n _)) as (o' & E). eexists _, (set_workers _ ([] ++ at_pc w0 _ :: ws)). apply s_worker; [exact Ew|].
  exact (w_integrate s (length ws) w0 3072 _ _ o' Ep id_order id_order E).
Qed.

Lemma program_safe : forall rec d r t m tr s, recording_ok d r t rec -> limit_near (max_range m) r -> reaches rec d m r t tr s ->
  existsb panicked (workers s) = false /\ render s <> RPanicked /\
  forall newer w older, workers s = newer ++ w :: older -> alive w = true -> moves rec (Worker (length older)) s.
Proof.
  intros rec d r t m tr s RO HM H. destruct (prog_run rec d r t m tr s RO HM H) as [I P]. split; [|split].
  - apply not_true_iff_false. intro K. apply (p_alive _ _ _ _ _ _ P). exact (panicked_cur _ _ I K).
  - eapply never_panics; exact I.
  - intros newer w older E A. pose proof (alive_newest _ _ _ _ _ I E A) as ->.
    assert (Hin : In w (workers s)) by (rewrite E; now left). pose proof (prog_moves rec d r t m tr s w RO HM I P Hin A) as M.
    unfold num in M. now rewrite E in M.
Qed.

Lemma program_map : forall rec d r t m tr s, recording_ok d r t rec -> limit_near (max_range m) r -> reaches rec d m r t tr s ->
  exists L rest, started tr = L ++ rest /\ length L = integrations tr /\ (length rest <= 1)%nat /\ scanned d r t m (grid s) L.
Proof.
  intros rec d r t m tr s RO HM H. destruct (prog_run rec d r t m tr s RO HM H) as [I [_ (L & cb & SC & ST & LI & _) _]].
  exists L, (pend s). split; [assumption|]. split; [assumption|]. split; [|assumption].
  unfold pend. destruct (workers s) as [|w ws]; [cbn; lia|]. destruct (w_pc w); cbn; lia.
Qed.
