(** The noise model. *)
From Coq Require Import ZArith List Bool Reals Lra Lia Psatz Permutation.
From Flocq Require Import Core BinarySingleNaN.
From Verif Require Import Base F32 FloatFacts RoundError Arith Geom NdArray GridMap RayCaster NoiseModel Spec SpecMap SpecNoise MathProofs ConverterProofs GeomProofs BoundsProofs CloudProofs NdProofs GridProofs ExpandProofs MapProofs RayProofs CastProofs RaysProofs.
Open Scope Z_scope.

(** ** Constructor *)
Lemma is_probability_iff : forall p, is_probability p = true <-> probability p.
Proof.
  intros p. unfold is_probability, probability, finite, real. rewrite andb_true_iff, !fleb_iff.
  rewrite (ext_finite f1) by (vm_compute; reflexivity). rewrite f1_real. change (ext f0) with 0%R. split.
  - intros ((_ & N & H1) & (_ & _ & H2)). assert (F : is_finite p = true).
    { apply ext_lt_finite; [assumption|]. apply Rabs_lt. pose proof (bpow_lt radix2 0 128 ltac:(lia)) as B. change (bpow radix2 0) with 1%R in B. lra. }
    rewrite (ext_finite p F) in *. auto.
  - intros (F & H1 & H2). rewrite (ext_finite p F). pose proof (is_finite_not_nan p F). repeat split; auto.
Qed.

Lemma lidar_new_spec : forall ln hit miss mn mx thr range,
  (Forall probability [hit; miss; mn; mx; thr] ->
     exists m, lidar_new ln hit miss mn mx thr range = Ret m /\
     let logodds p := ln (fdiv p (fsub f1 p)) in
     hit_logodds m = logodds hit /\ miss_logodds m = logodds miss /\ min_logodds m = logodds mn /\
     max_logodds m = logodds mx /\ occupied_threshold_logodds m = logodds thr /\ max_range m = range) /\
  (~ Forall probability [hit; miss; mn; mx; thr] -> lidar_new ln hit miss mn mx thr range = Panic).
Proof.
  intros. unfold lidar_new. split.
  - intros H. repeat match goal with H : Forall _ (_ :: _) |- _ => inversion H; clear H; subst end.
    repeat match goal with H : probability ?p |- _ => apply is_probability_iff in H; rewrite H end. cbn [oassert obind].
    eexists. split; [reflexivity|]. cbn. auto 8.
  - intros H. unfold oassert.
    destruct (is_probability hit) eqn:E1; [|reflexivity]. destruct (is_probability miss) eqn:E2; [|reflexivity].
    destruct (is_probability mn) eqn:E3; [|reflexivity]. destruct (is_probability mx) eqn:E4; [|reflexivity].
    destruct (is_probability thr) eqn:E5; [|reflexivity]. exfalso. apply H.
    apply is_probability_iff in E1, E2, E3, E4, E5. repeat (apply Forall_cons; [assumption|]). apply Forall_nil.
Qed.

(** ** One update *)
Lemma fmin_nan : forall x y, is_nan y = false -> is_nan (fmin x y) = false.
Proof. intros x y H. unfold fmin. destruct (is_nan x) eqn:E; [assumption|]. rewrite H. now destruct (fltb x y). Qed.
Lemma fmax_nan : forall x y, is_nan y = false -> is_nan (fmax x y) = false.
Proof. intros x y H. unfold fmax. destruct (is_nan x) eqn:E; [assumption|]. rewrite H. now destruct (fltb y x). Qed.

Lemma fmin_ext : forall x y, is_nan x = false -> is_nan y = false -> ext (fmin x y) = Rmin (ext x) (ext y).
Proof.
  intros x y Hx Hy. unfold fmin. rewrite Hx, Hy. destruct (fltb x y) eqn:E.
  - apply fltb_iff in E. rewrite Rmin_left; [reflexivity|lra].
  - apply fltb_false_iff in E; auto. rewrite Rmin_right; [reflexivity|lra].
Qed.
Lemma fmax_ext : forall x y, is_nan x = false -> is_nan y = false -> ext (fmax x y) = Rmax (ext x) (ext y).
Proof.
  intros x y Hx Hy. unfold fmax. rewrite Hx, Hy. destruct (fltb y x) eqn:E.
  - apply fltb_iff in E. rewrite Rmax_left; [reflexivity|lra].
  - apply fltb_false_iff in E; auto. rewrite Rmax_right; [reflexivity|lra].
Qed.

(** Adding something nonnegative does not lower a value. *)
Lemma fadd_up : forall x y : f32, is_nan x = false -> fle f0 y ->
  is_nan (fadd x y) = true \/ (is_nan (fadd x y) = false /\ (ext x <= ext (fadd x y))%R).
Proof.
  intros x y Nx H. apply fleb_iff in H. destruct H as (_ & Ny & Hy). change (ext f0) with 0%R in Hy.
  pose proof bp128_pos as P.
  destruct (is_finite x) eqn:Fx, (is_finite y) eqn:Fy.
  - destruct (fadd_ext x y Fx Fy) as [N E]. right. split; [assumption|]. rewrite E. rewrite (ext_finite x Fx).
    rewrite (ext_finite y Fy) in Hy. rewrite <- (clamp_lt_id (B2R x)) at 1 by apply B2R_lt_emax. apply clamp_le.
    rewrite <- (rnd_float x) at 1. apply rnd_le. lra.
  - destruct y as [s|s| |s m e b]; try discriminate. destruct s; [simpl in Hy; lra|].
    right. destruct x as [sx|sx| |sx m e b]; try discriminate; simpl; split; auto; try (pose proof (ext_bounds (B754_zero sx)); simpl in *; lra).
    pose proof (ext_bounds (B754_finite sx m e b)). simpl in *. lra.
  - destruct x as [s|s| |s m e b]; try discriminate. right.
    destruct y as [sy|sy| |sy m e b]; try discriminate; destruct s; simpl; split; auto; lra.
  - destruct x as [s|s| |s m e b]; try discriminate. destruct y as [sy|sy| |sy m e b]; try discriminate.
    destruct s, sy; simpl in *; auto; right; split; auto; lra.
Qed.
Lemma fadd_down : forall x y : f32, is_nan x = false -> fle y f0 ->
  is_nan (fadd x y) = true \/ (is_nan (fadd x y) = false /\ (ext (fadd x y) <= ext x)%R).
Proof.
  intros x y Nx H. apply fleb_iff in H. destruct H as (Ny & _ & Hy). change (ext f0) with 0%R in Hy.
  pose proof bp128_pos as P.
  destruct (is_finite x) eqn:Fx, (is_finite y) eqn:Fy.
  - destruct (fadd_ext x y Fx Fy) as [N E]. right. split; [assumption|]. rewrite E. rewrite (ext_finite x Fx).
    rewrite (ext_finite y Fy) in Hy. rewrite <- (clamp_lt_id (B2R x)) at 2 by apply B2R_lt_emax. apply clamp_le.
    rewrite <- (rnd_float x) at 2. apply rnd_le. lra.
  - destruct y as [s|s| |s m e b]; try discriminate. destruct s; [|simpl in Hy; lra].
    right. destruct x as [sx|sx| |sx m e b]; try discriminate; simpl; split; auto; try (pose proof (ext_bounds (B754_zero sx)); simpl in *; lra).
    pose proof (ext_bounds (B754_finite sx m e b)). simpl in *. lra.
  - destruct x as [s|s| |s m e b]; try discriminate. right.
    destruct y as [sy|sy| |sy m e b]; try discriminate; destruct s; simpl; split; auto; lra.
  - destruct x as [s|s| |s m e b]; try discriminate. destruct y as [sy|sy| |sy m e b]; try discriminate.
    destruct s, sy; simpl in *; auto; right; split; auto; lra.
Qed.

Lemma fle_iff : forall x y, fle x y <-> is_nan x = false /\ is_nan y = false /\ (ext x <= ext y)%R.
Proof. intros. apply fleb_iff. Qed.

Lemma hit_up : forall m v, fle f0 (hit_logodds m) -> fle v (max_logodds m) -> fle v (hit_value m v) /\ fle (hit_value m v) (max_logodds m).
Proof.
  intros m v H1 H2. apply fle_iff in H2. destruct H2 as (Nv & Nm & H2). unfold hit_value.
  destruct (fadd_up v _ Nv H1) as [N|[N L]].
  - unfold fmin. rewrite N. rewrite !fle_iff. repeat split; auto. lra.
  - rewrite !fle_iff, fmin_ext by assumption. pose proof (fmin_nan (fadd v (hit_logodds m)) _ Nm) as N'. repeat split; auto.
    + apply Rmin_glb; lra.
    + apply Rmin_r.
Qed.
Lemma miss_down : forall m v, fle (miss_logodds m) f0 -> fle (min_logodds m) v -> fle (miss_value m v) v /\ fle (min_logodds m) (miss_value m v).
Proof.
  intros m v H1 H2. apply fle_iff in H2. destruct H2 as (Nm & Nv & H2). unfold miss_value.
  destruct (fadd_down v _ Nv H1) as [N|[N L]].
  - unfold fmax. rewrite N. rewrite !fle_iff. repeat split; auto. lra.
  - rewrite !fle_iff, fmax_ext by assumption. pose proof (fmax_nan (fadd v (miss_logodds m)) _ Nm) as N'. repeat split; auto.
    + apply Rmax_lub; lra.
    + apply Rmax_r.
Qed.
Lemma fle_trans : forall x y z, fle x y -> fle y z -> fle x z.
Proof. intros x y z. rewrite !fle_iff. intros (? & ? & ?) (? & ? & ?). repeat split; auto. lra. Qed.

Lemma fltb_fle_trans : forall x y z, fltb x y = true -> fle y z -> fltb x z = true.
Proof. intros x y z H1 H2. apply fltb_iff in H1. apply fle_iff in H2. destruct H1 as (? & ? & ?), H2 as (? & ? & ?). apply fltb_iff. repeat split; auto. lra. Qed.
Lemma fltb_fle_false : forall x y z, fltb x y = false -> fle z y -> fltb x z = false.
Proof.
  intros x y z H1 H2. destruct (fltb x z) eqn:E; [|reflexivity]. exfalso.
  rewrite (fltb_fle_trans x z y E H2) in H1. discriminate.
Qed.

(** ** All values of a map *)
Definition all_values (P : f32 -> Prop) (g : grid_map f32) : Prop := Forall P (nd_data (gm_data g)).

Lemma get_value : forall P g c v, all_values P g -> gm_get g c = Ret v -> P v.
Proof.
  intros P g c v H E. unfold gm_get, nd_get in E. destruct (in_shape _ _); [|discriminate].
  destruct (nth_error _ _) eqn:Q; [|discriminate]. injection E as <-. apply nth_error_In in Q.
  unfold all_values in H. rewrite Forall_forall in H. now apply H.
Qed.
Lemma upd_Forall : forall {A} (P : A -> Prop) l i x, Forall P l -> P x -> Forall P (upd l i x).
Proof. intros A P. induction l as [|y l IH]; intros i x H Hx; [destruct i; exact H|]. inversion H; subst. destruct i; cbn [upd]; constructor; auto. Qed.
Lemma set_values : forall P g c v g', all_values P g -> P v -> gm_set g c v = Ret g' -> all_values P g'.
Proof.
  intros P g c v g' H Hv E. unfold gm_set, nd_set in E. destruct (in_shape _ _); [|discriminate]. cbn [obind] in E. injection E as <-.
  unfold all_values. cbn [gm_data nd_data]. now apply upd_Forall.
Qed.
Lemma omap_Forall : forall {X Y} (P : Y -> Prop) (f : X -> outcome Y) l r, (forall x y, f x = Ret y -> P y) -> omap f l = Ret r -> Forall P r.
Proof.
  intros X Y P f. induction l as [|x l IH]; intros r H E; cbn [omap] in E.
  - injection E as <-. constructor.
  - destruct (f x) eqn:Q; try discriminate. cbn [obind] in E. destruct (omap f l); try discriminate. cbn [obind] in E. injection E as <-.
    constructor; [now apply (H x)|]. now apply IH.
Qed.
Lemma nd_get_Forall : forall {A} (P : A -> Prop) a i x, Forall P (nd_data a) -> nd_get a i = Ret x -> P x.
Proof.
  intros A P a i x H E. unfold nd_get in E. destruct (in_shape _ _); [|discriminate].
  destruct (nth_error _ _) eqn:Q; [|discriminate]. injection E as <-. apply nth_error_In in Q. rewrite Forall_forall in H. now apply H.
Qed.
Lemma repeat_Forall : forall {A} (P : A -> Prop) x n, P x -> Forall P (repeat x n).
Proof. induction n; cbn; constructor; auto. Qed.
Lemma nwb_values : forall (P : f32 -> Prop) r b v a, P v -> ndarray_with_bounds r b v = Ret a -> Forall P (nd_data a).
Proof.
  intros P r b v a Hv E. unfold ndarray_with_bounds in E. destruct (isize_product _); try discriminate. cbn [obind] in E.
  destruct (oassert _); try discriminate. cbn [obind] in E. unfold nd_from_shape_vec in E. destruct (_ && _); [|discriminate].
  injection E as <-. cbn [nd_data]. now apply repeat_Forall.
Qed.
Lemma expand_values : forall (P : f32 -> Prop) g b v g', all_values P g -> P v -> gm_expand_bounds g b v = Ret g' -> all_values P g'.
Proof.
  intros P g b v g' H Hv E. unfold gm_expand_bounds in E. destruct (bounds_discretized _ _ _) as [db| |]; try discriminate. cbn [obind] in E.
  destruct (cb_discretized _ _) as [cb'| |]; try discriminate. cbn [obind] in E. destruct (cb_eqb _ _); [injection E as <-; assumption|].
  destruct (ndarray_with_bounds _ _ _) as [a| |] eqn:Ea; try discriminate. cbn [obind] in E.
  pose proof (nwb_values P _ _ _ _ Hv Ea) as Ha. unfold all_values.
  destruct (bounds_eqb _ _).
  - cbn [obind] in E. injection E as <-. exact Ha.
  - destruct (cell_sub _ (cmin cb')); try discriminate. cbn [obind] in E. destruct (cell_sub _ _); try discriminate. cbn [obind] in E.
    destruct (oassert _); try discriminate. cbn [obind] in E. destruct (cell_add _ _); try discriminate. cbn [obind] in E.
    destruct (nd_slice_assign _ _ _ _ _ _) as [a'| |] eqn:Es; try discriminate. cbn [obind] in E. injection E as <-. cbn [gm_data].
    unfold nd_slice_assign in Es. destruct (slice_axes _ _ _); try discriminate. cbn [obind] in Es. destruct (slice_axes _ _ _); try discriminate. cbn [obind] in Es.
    destruct (oassert _); try discriminate. cbn [obind] in Es. destruct (omap _ _) eqn:Eo; try discriminate. cbn [obind] in Es. injection Es as <-. cbn [nd_data].
    eapply omap_Forall; [|exact Eo]. cbv beta. intros x y Q. destruct (in_slice _ _); (eapply nd_get_Forall; [|exact Q]); assumption.
Qed.

(** ** The update loop *)
Lemma update_loop_fold : forall upd1 track cells g l,
  update_loop upd1 track cells (g, l) = (do g' <- ofold upd1 g cells; Ret (g', l ++ (if track then cells else []))).
Proof.
  intros upd1 track. induction cells as [|c cells IH]; intros g l.
  - cbn. destruct track; now rewrite app_nil_r.
  - unfold update_loop in *. cbn [ofold fst snd]. destruct (upd1 g c) as [g1| |]; [|reflexivity|reflexivity]. cbn [obind]. rewrite IH.
    destruct (ofold upd1 g1 cells); [|reflexivity|reflexivity]. cbn [obind]. destruct track; [|reflexivity]. now rewrite <- app_assoc.
Qed.

Lemma integrate_unfold : forall fuel of oo m g o cloud,
  integrate_point_cloud fuel of oo m g o cloud =
  (do g1 <- gm_expand_bounds g (pc_bounds cloud) default_cell_value;
   do fo <- cast_rays fuel o cloud (gm_bounds g1) (gm_resolution g1) (max_range m);
   do g2 <- ofold (integrate_miss m) g1 (of (fst fo));
   do g3 <- ofold (integrate_hit m) g2 (oo (snd fo));
   Ret (if gm_track_changes g1 then gm_add_changed_cells g3 (of (fst fo) ++ oo (snd fo)) else g3)).
Proof.
  intros. unfold integrate_point_cloud. destruct (gm_expand_bounds _ _ _) as [g1| |]; try reflexivity. cbn [obind].
  destruct (cast_rays _ _ _ _ _ _) as [fo| |]; try reflexivity. cbn [obind]. rewrite update_loop_fold.
  destruct (ofold (integrate_miss m) g1 (of (fst fo))) as [g2| |]; try reflexivity. cbn [obind]. rewrite update_loop_fold.
  destruct (ofold (integrate_hit m) g2 (oo (snd fo))) as [g3| |]; try reflexivity. cbn [obind fst snd].
  destruct (gm_track_changes g1); [|reflexivity]. now rewrite app_nil_l.
Qed.

Lemma fold_values : forall (P : f32 -> Prop) (f : f32 -> f32) upd1,
  (forall g c, upd1 g c = (do v <- gm_get g c; gm_set g c (f v))) -> (forall v, P v -> P (f v)) ->
  forall cells g g', all_values P g -> ofold upd1 g cells = Ret g' -> all_values P g'.
Proof.
  intros P f upd1 U Hf. induction cells as [|c cells IH]; intros g g' H E; cbn [ofold] in E; [injection E as <-; assumption|].
  rewrite U in E. destruct (gm_get g c) as [v| |] eqn:G; try discriminate. cbn [obind] in E. destruct (gm_set g c (f v)) as [g1| |] eqn:S; try discriminate.
  cbn [obind] in E. apply (IH g1); [|assumption]. eapply set_values; eauto. apply Hf. eapply get_value; eauto.
Qed.

Lemma integrate_values : forall (P : f32 -> Prop) fuel of oo m g o cloud g', P default_cell_value ->
  (forall v, P v -> P (hit_value m v)) -> (forall v, P v -> P (miss_value m v)) ->
  all_values P g -> integrate_point_cloud fuel of oo m g o cloud = Ret g' -> all_values P g'.
Proof.
  intros P fuel of oo m g o cloud g' H0 Hh Hm H E. rewrite integrate_unfold in E.
  destruct (gm_expand_bounds _ _ _) as [g1| |] eqn:E1; try discriminate. cbn [obind] in E. apply (expand_values P) in E1; auto.
  destruct (cast_rays _ _ _ _ _ _) as [fo| |]; try discriminate. cbn [obind] in E.
  destruct (ofold (integrate_miss m) _ _) as [g2| |] eqn:E2; try discriminate. cbn [obind] in E.
  destruct (ofold (integrate_hit m) _ _) as [g3| |] eqn:E3; try discriminate. cbn [obind] in E. injection E as <-.
  apply (fold_values P (miss_value m)) in E2; auto. apply (fold_values P (hit_value m)) in E3; auto.
  now destruct (gm_track_changes g1).
Qed.

Lemma integrated_values : forall (P : f32 -> Prop) d r t m o, P default_cell_value ->
  (forall v, P v -> P (hit_value m v)) -> (forall v, P v -> P (miss_value m v)) ->
  integrated d r t m o -> om_model o = m /\ all_values P (om_grid o).
Proof.
  intros P d r t m o H0 Hh Hm H. induction H as [o E|o fuel of oo origin cloud o' _ [IHm IH] _ _ E|o x _ [IHm IH]|o _ [IHm IH]].
  - unfold om_new in E. destruct (gm_new _ _ _ _) as [g| |] eqn:G; try discriminate. cbn [obind] in E. injection E as <-. cbn. split; [reflexivity|].
    unfold gm_new in G. destruct (ndarray_with_bounds _ _ _) eqn:N; try discriminate. cbn [obind] in G. injection G as <-. unfold all_values. cbn [gm_data].
    exact (nwb_values P _ _ _ _ H0 N).
  - unfold om_integrate in E. destruct (integrate_point_cloud _ _ _ _ _ _ _) as [g| |] eqn:G; try discriminate. cbn [obind] in E. injection E as <-. cbn.
    split; [assumption|]. rewrite IHm in G. eapply integrate_values; eauto.
  - auto.
  - auto.
Qed.

Lemma values_limited : forall d r t m o c v, signs_ok m -> integrated d r t m o -> gm_get (om_grid o) c = Ret v ->
  fle (min_logodds m) v /\ fle v (max_logodds m).
Proof.
  intros d r t m o c v (S1 & S2 & S3 & S4) H G.
  destruct (integrated_values (fun v => fle (min_logodds m) v /\ fle v (max_logodds m)) d r t m o) as [_ V]; auto.
  - intros x [L U]. destruct (hit_up m x S1 U). split; [now apply (fle_trans _ x)|assumption].
  - intros x [L U]. destruct (miss_down m x S2 L). split; [assumption|now apply (fle_trans _ x)].
  - exact (get_value _ _ _ _ V G).
Qed.

Lemma values_not_nan : forall d r t m o c v, is_nan (min_logodds m) = false -> is_nan (max_logodds m) = false ->
  integrated d r t m o -> gm_get (om_grid o) c = Ret v -> is_nan v = false.
Proof.
  intros d r t m o c v N1 N2 H G. destruct (integrated_values (fun v => is_nan v = false) d r t m o) as [_ V]; auto.
  - intros x _. now apply fmin_nan.
  - intros x _. now apply fmax_nan.
  - exact (get_value _ _ _ _ V G).
Qed.

(** ** Cells of rays are machine integers *)
Lemma upd_isize : forall c i x, cells_in_isize c -> isize_min <= x <= isize_max -> cells_in_isize (upd c i x).
Proof. intros. now apply upd_Forall. Qed.
Lemma isz_ret : forall z x, isz z = Ret x -> x = z /\ isize_min <= x <= isize_max.
Proof. intros z x. unfold isz, in_isize. destruct (_ && _) eqn:E; [|discriminate]. intros [= <-]. apply andb_true_iff in E. lia. Qed.
Lemma loop_isize : forall fuel e cur tm acc rc oe, cells_in_isize cur -> Forall cells_in_isize acc -> cells_in_isize (re_end_cell F32A e) ->
  ray_loop F32A fuel e cur tm acc = Ret (rc, oe) -> Forall cells_in_isize rc /\ (forall c, oe = Some c -> cells_in_isize c).
Proof.
  induction fuel as [|fuel IH]; intros e cur tm acc rc oe Hc Ha He H; [discriminate|]. cbn [ray_loop] in H.
  destruct (isz _) as [x| |] eqn:E; try discriminate. apply isz_ret in E. destruct E as [_ E]. cbn [obind] in H.
  pose proof (upd_isize cur (select_dim F32A tm) x Hc E) as Hu.
  destruct (cell_eqb _ _).
  - injection H as <- <-. split; [assumption|]. intros c [= <-]. assumption.
  - destruct (too_far _ _ _).
    + injection H as <- <-. split; [assumption|discriminate].
    + eapply IH; [exact Hu| |exact He|exact H]. apply Forall_app. split; [assumption|]. constructor; [assumption|constructor].
Qed.
Lemma cast_isize : forall fuel (o e b : point) r m rc oe, cast_ray F32A fuel o e b r m = Ret (rc, oe) ->
  Forall cells_in_isize rc /\ (forall c, oe = Some c -> cells_in_isize c).
Proof.
  intros fuel o e b r m rc oe H. unfold cast_ray in H. destruct (oassert _); try discriminate. cbn [obind] in H.
  destruct (cell_eqb _ _).
  - injection H as <- <-. split; [constructor|]. intros c [= <-]. apply cfp_in_isize.
  - eapply loop_isize; [| | |exact H].
    + apply cfp_in_isize.
    + constructor; [apply cfp_in_isize|constructor].
    + cbn. apply cfp_in_isize.
Qed.

Lemma cast_rays_isize : forall fuel o cloud b r m free occ, cast_rays fuel o cloud b r m = Ret (free, occ) ->
  Forall cells_in_isize free /\ Forall cells_in_isize occ.
Proof.
  intros fuel o cloud b r m free occ H. apply cast_rays_sets in H. destruct H as (_ & Ho & Hf & _ & _). split; apply Forall_forall; intros c Hc.
  - apply Hf in Hc. destruct Hc as [(p & rc & oe & _ & E & I) _]. apply cast_isize in E. destruct E as [E _]. rewrite Forall_forall in E. now apply E.
  - apply Ho in Hc. destruct Hc as (p & rc & _ & E). apply cast_isize in E. now apply E.
Qed.

(** ** Updating a list of different cells *)
Section Update.
Context (f : f32 -> f32).
Definition upd_cell (g : grid_map f32) (c : cell) : outcome (grid_map f32) := do v <- gm_get g c; gm_set g c (f v).

Lemma upd_cell_iff : forall g c, storage_ok (gm_data g) -> cells_in_isize c ->
  (in_range (nd_shape (gm_data g)) c -> exists g', upd_cell g c = Ret g') /\
  (~ in_range (nd_shape (gm_data g)) c -> upd_cell g c = Panic).
Proof.
  intros g c S I. unfold upd_cell. split; intros H.
  - destruct (proj1 (gm_get_iff g c S I) H) as [v ->]. cbn [obind]. now apply gm_set_iff.
  - rewrite (proj2 (gm_get_iff g c S I) H). reflexivity.
Qed.

Definition rest_same (g g' : grid_map f32) : Prop :=
  nd_shape (gm_data g') = nd_shape (gm_data g) /\ gm_bounds g' = gm_bounds g /\ gm_resolution g' = gm_resolution g /\
  gm_tile_size g' = gm_tile_size g /\ gm_track_changes g' = gm_track_changes g /\ gm_changed_cells g' = gm_changed_cells g.

Lemma upd_cell_spec : forall g c g', storage_ok (gm_data g) -> cells_in_isize c -> upd_cell g c = Ret g' ->
  storage_ok (gm_data g') /\ rest_same g g' /\
  (exists v, gm_get g c = Ret v /\ gm_get g' c = Ret (f v)) /\
  (forall c', cells_in_isize c' -> c' <> c -> gm_get g' c' = gm_get g c').
Proof.
  intros g c g' S I H. unfold upd_cell in H. destruct (gm_get g c) as [v| |] eqn:G; try discriminate. cbn [obind] in H.
  destruct (gm_set_spec g c (f v) g' S I H) as (S' & E1 & G1 & G2 & E2 & E3 & E4 & E5 & E6).
  split; [assumption|]. split; [repeat split; assumption|]. split; [now exists v|assumption].
Qed.

Lemma upd_cells_spec : forall cells g g', storage_ok (gm_data g) -> Forall cells_in_isize cells -> NoDup cells ->
  ofold upd_cell g cells = Ret g' ->
  storage_ok (gm_data g') /\ rest_same g g' /\
  (forall c, In c cells -> exists v, gm_get g c = Ret v /\ gm_get g' c = Ret (f v)) /\
  (forall c', cells_in_isize c' -> ~ In c' cells -> gm_get g' c' = gm_get g c').
Proof.
  induction cells as [|c cells IH]; intros g g' S F N H; cbn [ofold] in H.
  - injection H as <-. split; [assumption|]. split; [repeat split|]. split; [intros c []|auto].
  - inversion F as [|? ? Fc F']; inversion N as [|? ? Nc N']; subst. destruct (upd_cell g c) as [g1| |] eqn:E; try discriminate. cbn [obind] in H.
    destruct (upd_cell_spec g c g1 S Fc E) as (S1 & R1 & (v & V1 & V2) & O1). destruct (IH g1 g' S1 F' N' H) as (S2 & R2 & V & O).
    split; [assumption|]. split; [unfold rest_same in *; intuition congruence|]. split.
    + intros c' [<- |Hc'].
      * exists v. split; [assumption|]. rewrite O; assumption.
      * destruct (V c' Hc') as (v' & G1 & G2). exists v'. split; [|assumption]. rewrite <- G1. symmetry. apply O1.
        -- rewrite Forall_forall in F'. now apply F'.
        -- intros ->. contradiction.
    + intros c' I' N2. cbn [In] in N2. rewrite O by tauto. apply O1; [assumption|]. intros ->. tauto.
Qed.

Lemma upd_cells_iff : forall cells g, storage_ok (gm_data g) -> Forall cells_in_isize cells ->
  (Forall (in_range (nd_shape (gm_data g))) cells -> exists g', ofold upd_cell g cells = Ret g') /\
  (~ Forall (in_range (nd_shape (gm_data g))) cells -> ofold upd_cell g cells = Panic).
Proof.
  induction cells as [|c cells IH]; intros g S F.
  - split; [intros _; exists g; reflexivity|]. intro H. exfalso. apply H. constructor.
  - inversion F as [|? ? Fc F']; subst. cbn [ofold]. destruct (upd_cell_iff g c S Fc) as [U1 U2]. split.
    + intros H. inversion H as [|? ? Hc H']; subst. destruct (U1 Hc) as [g1 E]. rewrite E. cbn [obind].
      destruct (upd_cell_spec g c g1 S Fc E) as (S1 & (Sh & _) & _). apply IH; auto. now rewrite Sh.
    + intros H. destruct (Classical_Prop.classic (in_range (nd_shape (gm_data g)) c)) as [Hc|Hc].
      * destruct (U1 Hc) as [g1 E]. rewrite E. cbn [obind]. destruct (upd_cell_spec g c g1 S Fc E) as (S1 & (Sh & _) & _).
        apply IH; auto. rewrite Sh. intro K. apply H. now constructor.
      * now rewrite (U2 Hc).
Qed.
End Update.

(** Two arrays that agree everywhere are equal. *)
Lemma offset_onto : forall shape k, Forall (fun n => 0 <= n) shape -> 0 <= k < zprod shape ->
  exists c, in_range shape c /\ offset_of shape c = k.
Proof.
  induction shape as [|n shape IH]; intros k P H.
  - exists []. unfold zprod in H. cbn in H. split; [constructor|]. cbn. lia.
  - inversion P as [|? ? Pn P']; subst. change (zprod (n :: shape)) with (n * zprod shape) in H.
    pose proof (zprod_nonneg shape P') as Z0. assert (0 < zprod shape) by (destruct (Z.eq_dec (zprod shape) 0) as [e|]; [rewrite e in H|]; lia).
    destruct (IH (k mod zprod shape) P' (Z.mod_pos_bound k (zprod shape) ltac:(lia))) as (c & Ic & Oc).
    exists (k / zprod shape :: c). split.
    + constructor; [|assumption]. split; [apply Z.div_pos; lia|]. apply Z.div_lt_upper_bound; lia.
    + cbn [offset_of]. rewrite Oc. pose proof (Z.div_mod k (zprod shape) ltac:(lia)). lia.
Qed.
Lemma same_data : forall a b : ndarray f32, storage_ok a -> storage_ok b -> nd_shape a = nd_shape b ->
  (forall c, in_range (nd_shape a) c -> nd_get a c = nd_get b c) -> a = b.
Proof.
  intros [sh a] [sh' b] [Sa La] [Sb Lb] E H. cbn [nd_shape nd_data] in *. subst sh'. f_equal.
  assert (Sn : Forall (fun n => 0 <= n) sh) by (eapply Forall_impl; [|exact Sa]; cbn; lia).
  apply (nth_ext _ _ f0 f0); [lia|]. intros i L.
  destruct (offset_onto sh (Z.of_nat i) Sn) as (c & Ic & Oc); [change (zprod sh) with (fold_right Z.mul 1 sh); lia|].
  specialize (H c Ic). unfold nd_get in H. cbn [nd_shape nd_data] in H. rewrite (proj2 (in_shape_iff sh c) Ic), Oc, Nat2Z.id in H.
  rewrite (nth_error_nth' a f0) in H by assumption. rewrite (nth_error_nth' b f0) in H by lia. congruence.
Qed.

(** The result does not depend on the order of the updates. *)
Lemma upd_cells_order : forall f cells cells' g, storage_ok (gm_data g) -> Forall cells_in_isize cells -> NoDup cells ->
  Permutation cells cells' -> ofold (upd_cell f) g cells = ofold (upd_cell f) g cells'.
Proof.
  intros f cells cells' g S F N P.
  assert (F' : Forall cells_in_isize cells') by (eapply Permutation_Forall; eauto).
  assert (N' : NoDup cells') by (eapply Permutation_NoDup; eauto).
  destruct (Classical_Prop.classic (Forall (in_range (nd_shape (gm_data g))) cells)) as [R|R].
  - assert (R' : Forall (in_range (nd_shape (gm_data g))) cells') by (eapply Permutation_Forall; eauto).
    destruct (proj1 (upd_cells_iff f cells g S F) R) as [g1 E1]. destruct (proj1 (upd_cells_iff f cells' g S F') R') as [g2 E2].
    rewrite E1, E2. f_equal.
    destruct (upd_cells_spec f cells g g1 S F N E1) as (S1 & (A1 & A2 & A3 & A4 & A5 & A6) & V1 & O1).
    destruct (upd_cells_spec f cells' g g2 S F' N' E2) as (S2 & (B1 & B2 & B3 & B4 & B5 & B6) & V2 & O2).
    destruct g1 as [d1 r1 b1 t1 k1 l1], g2 as [d2 r2 b2 t2 k2 l2]. cbn [gm_data gm_bounds gm_resolution gm_tile_size gm_track_changes gm_changed_cells] in *.
    f_equal; try congruence. apply same_data; try assumption; [congruence|]. intros c Ic. rewrite A1 in Ic.
    assert (I : cells_in_isize c) by (apply (range_isize (nd_shape (gm_data g))); [apply S|assumption]).
    assert (G1 : forall r b t k l, gm_get (mkGrid d1 r b t k l) c = nd_get d1 c).
    { intros. apply gm_get_in; [exact S1|]. cbn [gm_data]. now rewrite A1. }
    assert (G2 : forall r b t k l, gm_get (mkGrid d2 r b t k l) c = nd_get d2 c).
    { intros. apply gm_get_in; [exact S2|]. cbn [gm_data]. now rewrite B1. }
    destruct (in_dec (list_eq_dec Z.eq_dec) c cells) as [Hc|Hc].
    + destruct (V1 c Hc) as (v & W1 & W2). destruct (V2 c (Permutation_in _ P Hc)) as (v' & W1' & W2'). rewrite G1 in W2. rewrite G2 in W2'. congruence.
    + specialize (O1 c I Hc). specialize (O2 c I). rewrite G1 in O1. rewrite G2 in O2. rewrite O1, O2; [reflexivity|].
      intro K. apply Hc. eapply Permutation_in; [apply Permutation_sym; exact P|exact K].
  - assert (R' : ~ Forall (in_range (nd_shape (gm_data g))) cells').
    { intro K. apply R. eapply Permutation_Forall; [apply Permutation_sym; exact P|exact K]. }
    rewrite (proj2 (upd_cells_iff f cells g S F) R), (proj2 (upd_cells_iff f cells' g S F') R'). reflexivity.
Qed.

(** ** Storage survives expansion, whatever the bounds *)
Lemma omap_length : forall {X Y} (f : X -> outcome Y) l r, omap f l = Ret r -> length r = length l.
Proof.
  intros X Y f. induction l as [|x l IH]; intros r E; cbn [omap] in E; [injection E as <-; reflexivity|].
  destruct (f x); try discriminate. cbn [obind] in E. destruct (omap f l); try discriminate. cbn [obind] in E. injection E as <-. cbn. f_equal. now apply IH.
Qed.
Lemma expand_storage : forall {A} (g : grid_map A) b v g', storage_ok (gm_data g) -> gm_expand_bounds g b v = Ret g' ->
  storage_ok (gm_data g') /\ gm_resolution g' = gm_resolution g /\ gm_tile_size g' = gm_tile_size g /\
  gm_track_changes g' = gm_track_changes g /\ gm_changed_cells g' = gm_changed_cells g.
Proof.
  intros A g b v g' S E. unfold gm_expand_bounds in E. destruct (bounds_discretized _ _ _) as [db| |]; try discriminate. cbn [obind] in E.
  destruct (cb_discretized _ _) as [cb'| |]; try discriminate. cbn [obind] in E. destruct (cb_eqb _ _); [injection E as <-; auto|].
  destruct (ndarray_with_bounds _ _ _) as [a| |] eqn:Ea; try discriminate. cbn [obind] in E.
  apply new_storage in Ea; [|apply cfp_in_isize]. destruct Ea as [Sa _].
  destruct (bounds_eqb _ _).
  - cbn [obind] in E. injection E as <-. auto.
  - destruct (cell_sub _ (cmin cb')); try discriminate. cbn [obind] in E. destruct (cell_sub _ _); try discriminate. cbn [obind] in E.
    destruct (oassert _); try discriminate. cbn [obind] in E. destruct (cell_add _ _); try discriminate. cbn [obind] in E.
    destruct (nd_slice_assign _ _ _ _ _ _) as [a'| |] eqn:Es; try discriminate. cbn [obind] in E. injection E as <-.
    cbn [gm_data gm_resolution gm_tile_size gm_track_changes gm_changed_cells]. split; [|auto].
    unfold nd_slice_assign in Es. destruct (slice_axes _ _ _); try discriminate. cbn [obind] in Es. destruct (slice_axes _ _ _); try discriminate. cbn [obind] in Es.
    destruct (oassert _); try discriminate. cbn [obind] in Es. destruct (omap _ _) eqn:Eo; try discriminate. cbn [obind] in Es. injection Es as <-.
    apply omap_length in Eo. destruct Sa as [Sa1 Sa2]. split; [exact Sa1|]. cbn [nd_data nd_shape]. rewrite Eo.
    apply length_indices. eapply Forall_impl; [|exact Sa1]. cbn. lia.
Qed.

(** ** integrate_point_cloud *)
Lemma order_in : forall ord s c, is_order ord -> In c (ord s) <-> In c s.
Proof. intros ord s c H. specialize (H s). split; intro K; eapply Permutation_in; try exact K; [assumption|now apply Permutation_sym]. Qed.

Lemma integrate_spec : forall fuel of oo m g o cloud g', is_order of -> is_order oo -> storage_ok (gm_data g) ->
  integrate_point_cloud fuel of oo m g o cloud = Ret g' ->
  exists g1 free occ,
    gm_expand_bounds g (pc_bounds cloud) f0 = Ret g1 /\
    cast_rays fuel o cloud (gm_bounds g1) (gm_resolution g1) (max_range m) = Ret (free, occ) /\
    storage_ok (gm_data g1) /\ storage_ok (gm_data g') /\ nd_shape (gm_data g') = nd_shape (gm_data g1) /\
    gm_bounds g' = gm_bounds g1 /\ gm_resolution g' = gm_resolution g /\ gm_tile_size g' = gm_tile_size g /\
    gm_track_changes g' = gm_track_changes g /\
    (forall c, In c occ -> exists v, gm_get g1 c = Ret v /\ gm_get g' c = Ret (fmin (fadd v (hit_logodds m)) (max_logodds m))) /\
    (forall c, In c free -> exists v, gm_get g1 c = Ret v /\ gm_get g' c = Ret (fmax (fadd v (miss_logodds m)) (min_logodds m))) /\
    (forall c, cells_in_isize c -> ~ In c occ -> ~ In c free -> gm_get g' c = gm_get g1 c) /\
    (gm_track_changes g = true -> exists l, gm_changed_cells g' = gm_changed_cells g ++ l /\ NoDup l /\ forall c, In c l <-> In c free \/ In c occ) /\
    (gm_track_changes g = false -> gm_changed_cells g' = gm_changed_cells g).
Proof.
  intros fuel of oo m g o cloud g' Hf Ho S E. rewrite integrate_unfold in E.
  destruct (gm_expand_bounds _ _ _) as [g1| |] eqn:E1; try discriminate. cbn [obind] in E.
  destruct (expand_storage _ _ _ _ S E1) as (S1 & X1 & X2 & X3 & X4).
  destruct (cast_rays _ _ _ _ _ _) as [[free occ]| |] eqn:E2; try discriminate. cbn [obind fst snd] in E.
  destruct (ofold (integrate_miss m) _ _) as [g2| |] eqn:E3; try discriminate. cbn [obind] in E.
  destruct (ofold (integrate_hit m) _ _) as [g3| |] eqn:E4; try discriminate. cbn [obind] in E. injection E as E.
  destruct (cast_rays_isize _ _ _ _ _ _ _ _ E2) as [If Io].
  destruct (cast_rays_sets _ _ _ _ _ _ _ _ E2) as (_ & _ & Hdis & Nf & No).
  assert (D : forall c, In c free -> ~ In c occ) by (intros c Hc; now apply Hdis in Hc).
  assert (If' : Forall cells_in_isize (of free)) by (eapply Permutation_Forall; [apply Permutation_sym, Hf|assumption]).
  assert (Io' : Forall cells_in_isize (oo occ)) by (eapply Permutation_Forall; [apply Permutation_sym, Ho|assumption]).
  assert (Nf' : NoDup (of free)) by (eapply Permutation_NoDup; [apply Permutation_sym, Hf|assumption]).
  assert (No' : NoDup (oo occ)) by (eapply Permutation_NoDup; [apply Permutation_sym, Ho|assumption]).
  change (integrate_miss m) with (upd_cell (miss_value m)) in E3. change (integrate_hit m) with (upd_cell (hit_value m)) in E4.
  destruct (upd_cells_spec _ _ _ _ S1 If' Nf' E3) as (S2 & (A1 & A2 & A3 & A4 & A5 & A6) & V2 & O2).
  destruct (upd_cells_spec _ _ _ _ S2 Io' No' E4) as (S3 & (B1 & B2 & B3 & B4 & B5 & B6) & V3 & O3).
  exists g1, free, occ. split; [reflexivity|]. split; [exact E2|]. split; [assumption|].
  assert (GE : forall c, gm_get g' c = gm_get g3 c) by (intro c; rewrite <- E; now destruct (gm_track_changes g1)).
  assert (DE : gm_data g' = gm_data g3) by (rewrite <- E; now destruct (gm_track_changes g1)).
  split; [now rewrite DE|]. split; [rewrite DE; congruence|].
  split; [rewrite <- E; destruct (gm_track_changes g1); cbn; congruence|].
  split; [rewrite <- E; destruct (gm_track_changes g1); cbn; congruence|].
  split; [rewrite <- E; destruct (gm_track_changes g1); cbn; congruence|].
  split; [rewrite <- E; destruct (gm_track_changes g1); cbn; congruence|].
  rewrite Forall_forall in If, Io.
  split; [|split; [|split; [|split]]].
  - intros c Hc. destruct (V3 c) as (v & G1 & G2); [now apply order_in|]. exists v. rewrite GE. split; [|assumption].
    rewrite <- G1. symmetry. apply O2; [now apply Io|]. rewrite order_in by assumption. intro K. now apply (D c).
  - intros c Hc. destruct (V2 c) as (v & G1 & G2); [now apply order_in|]. exists v. rewrite GE. split; [assumption|].
    transitivity (gm_get g2 c); [|exact G2]. apply O3; [now apply If|]. rewrite order_in by assumption. now apply D.
  - intros c I N1 N2. rewrite GE, O3, O2; auto; now rewrite order_in.
  - intros T. exists (of free ++ oo occ). split.
    + rewrite <- E. rewrite X3, T. cbn [gm_changed_cells gm_add_changed_cells]. congruence.
    + split; [|intro c; rewrite in_app_iff, !order_in by assumption; reflexivity].
      clear - Nf' No' D Hf Ho. revert Nf' D. generalize (order_in of free) (order_in oo occ). intros F1 F2.
      assert (D' : forall c, In c (of free) -> In c free) by (intros c; apply F1; assumption).
      assert (D2 : forall c, In c (oo occ) -> In c occ) by (intros c; apply F2; assumption). clear F1 F2.
      revert D'. induction (of free) as [|c l IH]; intros D' Nf' D; [exact No'|]. cbn [app]. inversion Nf'; subst.
      constructor; [|apply IH; auto; intros; apply D'; now right]. rewrite in_app_iff. intros [K|K]; [contradiction|].
      apply (D c); [apply D'; now left|now apply D2].
  - intros T. rewrite <- E. rewrite X3, T. congruence.
Qed.

Lemma integrate_order : forall fuel of oo of' oo' m g o cloud, is_order of -> is_order oo -> is_order of' -> is_order oo' ->
  storage_ok (gm_data g) ->
  same_outcome (integrate_point_cloud fuel of oo m g o cloud) (integrate_point_cloud fuel of' oo' m g o cloud).
Proof.
  intros fuel of oo of' oo' m g o cloud Hf Ho Hf' Ho' S. rewrite !integrate_unfold.
  destruct (gm_expand_bounds _ _ _) as [g1| |] eqn:E1; cbn [obind]; [|exact I|exact I].
  destruct (expand_storage _ _ _ _ S E1) as (S1 & X1 & X2 & X3 & X4).
  destruct (cast_rays _ _ _ _ _ _) as [[free occ]| |] eqn:E2; cbn [obind fst snd]; [|exact I|exact I].
  destruct (cast_rays_isize _ _ _ _ _ _ _ _ E2) as [If Io].
  destruct (cast_rays_sets _ _ _ _ _ _ _ _ E2) as (_ & _ & Hdis & Nf & No).
  change (integrate_miss m) with (upd_cell (miss_value m)). change (integrate_hit m) with (upd_cell (hit_value m)).
  assert (If' : Forall cells_in_isize (of free)) by (eapply Permutation_Forall; [apply Permutation_sym, Hf|assumption]).
  assert (Io' : Forall cells_in_isize (oo occ)) by (eapply Permutation_Forall; [apply Permutation_sym, Ho|assumption]).
  assert (Nf' : NoDup (of free)) by (eapply Permutation_NoDup; [apply Permutation_sym, Hf|assumption]).
  assert (No' : NoDup (oo occ)) by (eapply Permutation_NoDup; [apply Permutation_sym, Ho|assumption]).
  assert (Pf : Permutation (of free) (of' free)) by (eapply Permutation_trans; [apply Hf|apply Permutation_sym, Hf']).
  assert (Po : Permutation (oo occ) (oo' occ)) by (eapply Permutation_trans; [apply Ho|apply Permutation_sym, Ho']).
  rewrite <- (upd_cells_order _ _ _ g1 S1 If' Nf' Pf).
  destruct (ofold _ g1 (of free)) as [g2| |] eqn:E3; cbn [obind]; [|exact I|exact I].
  destruct (upd_cells_spec _ _ _ _ S1 If' Nf' E3) as (S2 & _ & _ & _).
  rewrite <- (upd_cells_order _ _ _ g2 S2 Io' No' Po).
  destruct (ofold _ g2 (oo occ)) as [g3| |] eqn:E4; cbn [obind]; [|exact I|exact I].
  unfold same_outcome, same_map. destruct (gm_track_changes g1); cbn [gm_data gm_bounds gm_resolution gm_tile_size gm_track_changes gm_changed_cells gm_add_changed_cells].
  - repeat split; auto. apply Permutation_app_head. now apply Permutation_app.
  - repeat split; auto.
Qed.

(** ** In terms of places in the world *)
Lemma upd_cells_reachable : forall d r t f cells g g', reachable d r t g -> ofold (upd_cell f) g cells = Ret g' -> reachable d r t g'.
Proof.
  intros d r t f. induction cells as [|c cells IH]; intros g g' H E; cbn [ofold] in E; [now injection E as <-|].
  destruct (upd_cell f g c) as [g1| |] eqn:E1; try discriminate. cbn [obind] in E. apply (IH g1); [|assumption].
  unfold upd_cell in E1. destruct (gm_get g c); try discriminate. cbn [obind] in E1. eapply reach_set; eassumption.
Qed.
Lemma integrate_reachable : forall d r t fuel of oo m g o cloud g', reachable d r t g -> request_ok d r (pc_bounds cloud) ->
  integrate_point_cloud fuel of oo m g o cloud = Ret g' -> reachable d r t g'.
Proof.
  intros d r t fuel of oo m g o cloud g' H RQ E. rewrite integrate_unfold in E.
  destruct (gm_expand_bounds _ _ _) as [g1| |] eqn:E1; try discriminate. cbn [obind] in E.
  destruct (cast_rays _ _ _ _ _ _) as [fo| |]; try discriminate. cbn [obind] in E.
  destruct (ofold (integrate_miss m) _ _) as [g2| |] eqn:E2; try discriminate. cbn [obind] in E.
  destruct (ofold (integrate_hit m) _ _) as [g3| |] eqn:E3; try discriminate. cbn [obind] in E. injection E as <-.
  apply (upd_cells_reachable d r t (miss_value m)) in E2; [|eapply reach_expand; eassumption].
  apply (upd_cells_reachable d r t (hit_value m)) in E3; [|assumption].
  destruct (gm_track_changes g1); [|assumption]. now apply reach_add.
Qed.

Lemma covers_same : forall d r t (g g' : grid_map f32) cb, covers_cells d r t g cb -> storage_ok (gm_data g') ->
  nd_shape (gm_data g') = nd_shape (gm_data g) -> gm_bounds g' = gm_bounds g ->
  gm_resolution g' = gm_resolution g -> gm_tile_size g' = gm_tile_size g -> covers_cells d r t g' cb.
Proof. intros d r t g g' cb [C1 C2 C3 C4 C5 C6 C7 C8 C9] S E1 E2 E3 E4. constructor; try congruence; rewrite ?E2; assumption. Qed.

(** The value a place had before: its value if it was covered, the default otherwise. *)
Lemma integrate_places : forall d r t fuel of oo m g o cloud g', map_range d r t -> reachable d r t g ->
  request_ok d r (pc_bounds cloud) -> is_order of -> is_order oo ->
  integrate_point_cloud fuel of oo m g o cloud = Ret g' ->
  exists cb cb' free occ, covers_cells d r t g cb /\ covers_cells d r t g' cb' /\
    cast_rays fuel o cloud (gm_bounds g') r (max_range m) = Ret (free, occ) /\
    (forall c, In c free \/ In c occ -> in_range (nd_shape (gm_data g')) c) /\
    (forall w, in_box cb w -> in_box cb' w) /\
    forall w, in_box cb' w -> let c := map2 Z.sub w (cmin cb') in
      exists old, ((in_box cb w -> gm_get g (map2 Z.sub w (cmin cb)) = Ret old) /\ (~ in_box cb w -> old = f0)) /\
        (In c occ -> gm_get g' c = Ret (fmin (fadd old (hit_logodds m)) (max_logodds m))) /\
        (In c free -> gm_get g' c = Ret (fmax (fadd old (miss_logodds m)) (min_logodds m))) /\
        (~ In c occ -> ~ In c free -> gm_get g' c = Ret old).
Proof.
  intros d r t fuel of oo m g o cloud g' M H RQ Hf Ho E. destruct (wf_of_reachable d r t g M H) as [cb W].
  destruct (integrate_spec fuel of oo m g o cloud g' Hf Ho (wf_storage _ _ _ _ _ W) E) as (g1 & free & occ & E1 & E2 & S1 & S' & Sh & B & R & T & K & Occ & Free & Other & _).
  destruct (expand_step d r t g cb (pc_bounds cloud) f0 M W RQ) as (db & g2 & cb' & u & _ & E1' & W' & _ & _ & _ & _ & _ & _ & _ & _ & Keep & New & _).
  assert (g2 = g1) by congruence. subst g2. clear E1'. pose proof (wf_covers _ _ _ _ _ M W) as C. pose proof (wf_covers _ _ _ _ _ M W') as C'.
  destruct (expand_storage _ _ _ _ (wf_storage _ _ _ _ _ W) E1) as (_ & X1 & X2 & _).
  destruct (cast_rays_isize _ _ _ _ _ _ _ _ E2) as [If Io]. rewrite Forall_forall in If, Io.
  exists cb, cb', free, occ. split; [assumption|]. split; [apply (covers_same d r t g1); try assumption; congruence|].
  split; [rewrite B, <- (cc_resolution _ _ _ _ _ C'); exact E2|]. split.
  { intros c Hc. rewrite Sh. apply Classical_Prop.NNPP. intro N.
    destruct Hc as [Hc|Hc]; [destruct (Free c Hc) as (v & G & _)|destruct (Occ c Hc) as (v & G & _)];
    rewrite (proj2 (gm_get_iff g1 c S1 ltac:(auto)) N) in G; discriminate. }
  split; [intros w Hw; now destruct (Keep w Hw)|].
  intros w Hw c. assert (OLD : exists old, gm_get g1 c = Ret old /\ (in_box cb w -> gm_get g (map2 Z.sub w (cmin cb)) = Ret old) /\ (~ in_box cb w -> old = f0)).
  { destruct (in_box_dec cb w) as [Hb|Hb].
    - destruct (Keep w Hb) as (_ & x & G1 & G2). exists x. split; [assumption|]. split; [auto|contradiction].
    - exists f0. split; [now apply New|]. split; [contradiction|auto]. }
  destruct OLD as (old & G & OLD). exists old. split; [assumption|]. split; [|split].
  - intros Hc. destruct (Occ c Hc) as (v & G1 & G2). rewrite G2. congruence.
  - intros Hc. destruct (Free c Hc) as (v & G1 & G2). rewrite G2. congruence.
  - intros N1 N2. rewrite Other; auto. destruct W' as [_ _ (L1 & L2 & _) _ _ _ Ws _]. apply (box_range cb' w) in Hw; [|congruence]. destruct Hw as [_ Hw].
    rewrite <- Ws in Hw. apply (range_isize (nd_shape (gm_data g1))); [apply S1|assumption].
Qed.

Lemma observed_facts : forall d r t m o L, observed d r t m o L -> om_model o = m /\ reachable d r t (om_grid o).
Proof.
  intros d r t m o L H. induction H as [o L E _|o L fuel of oo origin cloud o' cb' free occ L' _ [IHm IH] _ _ RQ E _ _ _ _ _|o L x _ [IHm IH]|o L _ [IHm IH]].
  - unfold om_new in E. destruct (gm_new _ _ _ _) as [g| |] eqn:G; try discriminate. cbn [obind] in E. injection E as <-. cbn. split; [reflexivity|]. eapply reach_new; exact G.
  - unfold om_integrate in E. destruct (integrate_point_cloud _ _ _ _ _ _ _) as [g| |] eqn:G; try discriminate. cbn [obind] in E. injection E as <-. cbn.
    split; [assumption|]. eapply integrate_reachable; eassumption.
  - split; [assumption|]. now apply reach_track.
  - split; [assumption|]. now apply reach_clear.
Qed.

Lemma observed_values : forall d r t m o L, map_range d r t -> observed d r t m o L ->
  exists cb, covers_cells d r t (om_grid o) cb /\
  (forall w, in_box cb w -> gm_get (om_grid o) (map2 Z.sub w (cmin cb)) = Ret (fold_left (evidence m) (L w) f0)) /\
  (forall w, ~ in_box cb w -> L w = []).
Proof.
  intros d r t m o L M H. induction H as [o L E N|o L fuel of oo origin cloud o' cb' free occ L' H IH Hf Ho RQ E C' Ec Occ Free Oth|o L x H IH|o L H IH].
  - unfold om_new in E. destruct (gm_new _ _ _ _) as [g| |] eqn:G; try discriminate. cbn [obind] in E. injection E as <-. cbn.
    rewrite (empty_bounds d r (proj1 (proj2 M))) in G. destruct (zero_ordered d t) as (O & T & N0). destruct (wf_new _ _ _ _ _ _ M O T N0 G) as [W0 _].
    exists (cb_empty d). split; [now apply wf_covers|]. split; [|auto]. intros w Hw. exfalso. apply (box_range _ w) in Hw; [|reflexivity]. destruct Hw as [_ Hw]. revert Hw. apply empty_no_cells, M.
  - destruct IH as (cb & C & V & Z). destruct (observed_facts _ _ _ _ _ _ H) as [Em Rg].
    unfold om_integrate in E. destruct (integrate_point_cloud _ _ _ _ _ _ _) as [g'| |] eqn:G; try discriminate. cbn [obind] in E. injection E as <-. cbn [om_grid om_model] in *.
    rewrite Em in G. destruct (integrate_places d r t fuel of oo m (om_grid o) origin cloud g' M Rg RQ Hf Ho G) as (cb2 & cb2' & free2 & occ2 & C2 & C2' & Ec2 & RI & KI & P).
    rewrite (covers_unique d r t _ _ _ (proj1 (proj2 M)) C2 C) in P, KI. rewrite (covers_unique d r t _ _ _ (proj1 (proj2 M)) C2' C') in P, KI. clear cb2 cb2' C2 C2'.
    rewrite Ec in Ec2. injection Ec2 as <- <-. exists cb'. split; [assumption|].
    destruct C' as [_ _ (L1 & L2 & _) _ _ _ _ Ws _].
    assert (FA : forall w, length w = d -> forall c, In c occ \/ In c free -> w = map2 Z.add (cmin cb') c -> map2 Z.sub w (cmin cb') = c).
    { intros w Lw c Hc ->. apply (range_box cb'); [congruence|]. rewrite <- Ws. apply RI. tauto. }
    split.
    + intros w Hw. pose proof Hw as Hw'. apply (box_range cb' w) in Hw'; [|congruence]. destruct Hw' as [LW _]. destruct (P w Hw) as (old & (O1 & O2) & P1 & P2 & P3).
      assert (OV : old = fold_left (evidence m) (L w) f0).
      { destruct (in_box_dec cb w) as [Hb|Hb]; [specialize (O1 Hb); rewrite V in O1 by assumption; congruence|]. rewrite (O2 Hb), Z by assumption. reflexivity. }
      assert (WW : map2 Z.add (cmin cb') (map2 Z.sub w (cmin cb')) = w) by (apply box_add; unfold cell in *; congruence).
      destruct (in_dec (list_eq_dec Z.eq_dec) (map2 Z.sub w (cmin cb')) occ) as [I1|I1].
      { pose proof (Occ _ I1) as Q. rewrite WW in Q. rewrite Q, fold_left_app. cbn [fold_left]. rewrite <- OV. cbn [evidence]. now apply P1. }
      destruct (in_dec (list_eq_dec Z.eq_dec) (map2 Z.sub w (cmin cb')) free) as [I2|I2].
      { pose proof (Free _ I2) as Q. rewrite WW in Q. rewrite Q, fold_left_app. cbn [fold_left]. rewrite <- OV. cbn [evidence]. now apply P2. }
      rewrite Oth; [rewrite <- OV; now apply P3|]. intros c Hc Ew. apply (FA w) in Ew; [|unfold cell in *; congruence|assumption]. subst c. tauto.
    + intros w Nw. rewrite Oth.
      * apply Z. intro Hb. apply Nw. now apply KI.
      * intros c Hc ->. apply Nw. apply (range_box cb'); [congruence|]. rewrite <- Ws. apply RI. tauto.
  - destruct IH as (cb & C & V). exists cb. split; [|exact V]. apply (covers_same d r t (om_grid o)); try reflexivity; [assumption|exact (cc_storage _ _ _ _ _ C)].
  - destruct IH as (cb & C & V). exists cb. split; [|exact V]. apply (covers_same d r t (om_grid o)); try reflexivity; [assumption|exact (cc_storage _ _ _ _ _ C)].
Qed.

(** ** When integration returns *)
Lemma cast_limited_sub : forall fuel d o e b r m rc0 c, (d = 2 \/ d = 3)%nat ->
  length o = d -> length e = d -> length b = d ->
  cast_ray F32A fuel o e b r f0 = Ret (rc0, Some c) ->
  exists rc oe, cast_ray F32A fuel o e b r m = Ret (rc, oe) /\ incl rc rc0 /\ (oe = None \/ oe = Some c).
Proof.
  intros fuel d o e b r m rc0 c Hd Lo Le Lb E. destruct (fltb f0 m) eqn:Em.
  2:{ exists rc0, (Some c). rewrite (cast_unlimited fuel o e b r m f0 Em eq_refl). split; [exact E|]. split; [apply incl_refl|now right]. }
  destruct (cast_prefix fuel d o e b r m f0 rc0 c Hd Lo Le Lb eq_refl Em E) as [P1 P2].
  destruct (Classical_Prop.classic (Forall (fun x => ~ beyond o b r m x) (tl rc0))) as [F|F].
  - exists rc0, (Some c). split; [now apply P1|]. split; [apply incl_refl|now right].
  - destruct rc0 as [|x0 rc]; cbn [tl] in F; [exfalso; apply F; constructor|].
    assert (S : exists p1 x p2, rc = p1 ++ x :: p2 /\ Forall (fun x => ~ beyond o b r m x) p1 /\ beyond o b r m x).
    { clear - F. induction rc as [|y rc IH]; [exfalso; apply F; constructor|]. destruct (Classical_Prop.classic (beyond o b r m y)) as [B|B].
      - exists [], y, rc. repeat split; auto.
      - destruct IH as (p1 & x & p2 & -> & F1 & B1); [intro K; apply F; now constructor|]. exists (y :: p1), x, p2. repeat split; auto. }
    destruct S as (p1 & x & p2 & -> & F1 & B1). exists (x0 :: p1), None. split; [apply (P2 (x0 :: p1) x p2); auto; discriminate|]. split; [|now left].
    intros y [<- |Hy]; [now left|]. right. apply in_or_app. now left.
Qed.

Lemma cast_cells : forall fuel d o e b r rc c, (d = 2 \/ d = 3)%nat -> length o = d -> length e = d -> length b = d ->
  cast_ray F32A fuel o e b r f0 = Ret (rc, Some c) -> forall shape, in_range shape (cell_from_point F32A o b r) ->
  in_range shape (cell_from_point F32A e b r) -> forall x, In x (c :: rc) -> in_range shape x.
Proof.
  intros fuel d o e b r rc c Hd Lo Le Lb E shape I1 I2 x Hx.
  destruct (cast_completed fuel d o e b r f0 rc c Hd Lo Le Lb E) as (Ec & _ & _ & _ & B). cbv zeta in B. destruct Hx as [<- |Hx]; [now rewrite Ec|].
  apply B in Hx. rewrite Ec in Hx. clear - I1 I2 Hx. revert x Hx. revert I1 I2. generalize (cell_from_point F32A o b r) (cell_from_point F32A e b r).
  induction shape as [|n shape IH]; intros a a' I1 I2 x [Lx H]; inversion I1 as [|? y ? l Hy Hl]; inversion I2 as [|? y' ? l' Hy' Hl']; subst.
  - destruct x; [constructor|discriminate Lx].
  - destruct x as [|k x]; [discriminate Lx|]. constructor.
    + specialize (H 0%nat ltac:(cbn; lia)). cbn in H. lia.
    + apply (IH l l'); auto. split; [cbn in Lx; lia|]. intros i Hi. apply (H (S i)). cbn. lia.
Qed.

Lemma mcol_point_length : forall m p, matrix_ok m -> In p (pc_points m) -> length p = nrows m.
Proof.
  intros m p H I. destruct (pc_bounds_spec m H) as ((L1 & _) & _ & C & _). destruct (C p I) as [C1 _]. apply Forall2_length in C1. rewrite <- L1. symmetry. exact C1.
Qed.

Lemma integrate_returns : forall d r t fuel of oo m g g1 o cloud, map_range d r t -> reachable d r t g ->
  is_order of -> is_order oo -> matrix_ok cloud -> nrows cloud = d -> length o = d -> request_ok d r (pc_bounds cloud) ->
  gm_expand_bounds g (pc_bounds cloud) f0 = Ret g1 ->
  in_range (nd_shape (gm_data g1)) (gm_cell_from_point g1 o) ->
  (forall p, In p (pc_points cloud) -> Forall finite p /\ Forall2 (axis_safe r) p (bmax (pc_bounds cloud)) /\
     exists rc c, cast_ray F32A fuel o p (bmin (gm_bounds g1)) r f0 = Ret (rc, Some c)) ->
  exists g', integrate_point_cloud fuel of oo m g o cloud = Ret g'.
Proof.
  intros d r t fuel of oo m g g1 o cloud M H Hf Ho MO ND LO RQ E1 IO P. rewrite integrate_unfold. unfold default_cell_value. rewrite E1. cbn [obind].
  pose proof (reach_expand _ _ _ _ _ _ _ H RQ E1) as H1. destruct (wf_of_reachable d r t g1 M H1) as [cb1 W1].
  pose proof (wf_covers _ _ _ _ _ M W1) as C1. pose proof (cc_resolution _ _ _ _ _ C1) as ER. pose proof (cc_storage _ _ _ _ _ C1) as S1.
  assert (LB : length (bmin (gm_bounds g1)) = d). { pose proof (Forall2_length _ _ _ (cc_min _ _ _ _ _ C1)) as L. destruct (cc_ordered _ _ _ _ _ C1) as (L1 & _). unfold cell, point in *. congruence. }
  assert (Q : forall p, In p (pc_points cloud) -> exists rc oe, cast_ray F32A fuel o p (bmin (gm_bounds g1)) r (max_range m) = Ret (rc, oe) /\
     (forall x, In x rc -> in_range (nd_shape (gm_data g1)) x) /\ (forall x, oe = Some x -> in_range (nd_shape (gm_data g1)) x)).
  { intros p Hp. destruct (P p Hp) as (Fp & Sp & rc & c & Ep). pose proof (mcol_point_length cloud p MO Hp) as LP. rewrite ND in LP.
    assert (IP : in_range (nd_shape (gm_data g1)) (gm_cell_from_point g1 p)).
    { assert (I : inside (pc_bounds cloud) p).
      { destruct (pc_bounds_spec cloud MO) as (_ & _ & C & _). destruct (C p Hp) as [Ca Cb].
        assert (NN : forall x : f32, finite x -> is_nan x = true -> False) by (intros x Fx Nx; unfold finite in Fx; destruct x; discriminate).
        clear - Ca Cb Fp NN. split.
        - clear Cb. revert Fp Ca. generalize (bmin (pc_bounds cloud)). intros l Fp Ca. induction Ca as [|x y l l' Hx Hl IH]; [constructor|].
          inversion Fp as [|? ? F1 F2]; subst. constructor; [|now apply IH]. destruct Hx as [N|]; [|assumption]. now destruct (NN y F1).
        - clear Ca. revert Fp Cb. generalize (bmax (pc_bounds cloud)). intros l Fp Cb. induction Cb as [|x y l0 l' Hx Hl IH]; [constructor|].
          inversion Fp as [|? ? F1 F2]; subst. constructor; [|now apply IH]. destruct Hx as [N|]; [|assumption]. now destruct (NN x F1). }
      destruct (expand_room d r t g (pc_bounds cloud) f0 g1 p M H RQ E1 I) as [_ R]. destruct (R Sp) as [x G].
      eapply gm_get_range; [exact S1| |exact G]. apply cfp_in_isize. }
    unfold gm_cell_from_point in IP, IO. rewrite ER in IP, IO.
    destruct (cast_limited_sub fuel d o p _ r (max_range m) rc c (proj1 M) LO LP LB Ep) as (rc' & oe & E' & In' & O').
    exists rc', oe. split; [exact E'|]. split.
    - intros x Hx. apply (cast_cells fuel d o p _ r rc c (proj1 M) LO LP LB Ep _ IO IP). right. now apply In'.
    - intros x ->. destruct O' as [O'|[= ->]]; [discriminate|]. apply (cast_cells fuel d o p _ r rc c (proj1 M) LO LP LB Ep _ IO IP). now left. }
  rewrite ER. destruct (cast_rays_returns fuel o cloud (gm_bounds g1) r (max_range m)) as [[free occ] Ec].
  { intros p Hp. destruct (Q p Hp) as (rc & oe & E' & _). now exists (rc, oe). }
  rewrite Ec. cbn [obind fst snd]. destruct (cast_rays_isize _ _ _ _ _ _ _ _ Ec) as [If Io]. destruct (cast_rays_sets _ _ _ _ _ _ _ _ Ec) as (_ & So & Sf & Nf & No).
  assert (Rf : Forall (in_range (nd_shape (gm_data g1))) free).
  { apply Forall_forall. intros x Hx. apply Sf in Hx. destruct Hx as [(p & rc & oe & Hp & E' & I) _]. destruct (Q p Hp) as (rc' & oe' & E'' & Q1 & _). rewrite E' in E''. injection E'' as <- <-. now apply Q1. }
  assert (Ro : Forall (in_range (nd_shape (gm_data g1))) occ).
  { apply Forall_forall. intros x Hx. apply So in Hx. destruct Hx as (p & rc & Hp & E'). destruct (Q p Hp) as (rc' & oe' & E'' & _ & Q2). rewrite E' in E''. injection E'' as <- <-. now apply Q2. }
  assert (PF : forall (T : cell -> Prop) ord s, is_order ord -> Forall T s -> Forall T (ord s)) by (intros T ord s HO HF; eapply Permutation_Forall; [apply Permutation_sym, HO|assumption]).
  change (integrate_miss m) with (upd_cell (miss_value m)). change (integrate_hit m) with (upd_cell (hit_value m)).
  destruct (proj1 (upd_cells_iff (miss_value m) (of free) g1 S1 (PF _ _ _ Hf If)) (PF _ _ _ Hf Rf)) as [g2 E2]. rewrite E2. cbn [obind].
  destruct (upd_cells_spec _ _ _ _ S1 (PF _ _ _ Hf If) ltac:(eapply Permutation_NoDup; [apply Permutation_sym, Hf|assumption]) E2) as (S2 & (Sh & _) & _ & _).
  rewrite <- Sh in Ro.
  destruct (proj1 (upd_cells_iff (hit_value m) (oo occ) g2 S2 (PF _ _ _ Ho Io)) (PF _ _ _ Ho Ro)) as [g3 E3]. rewrite E3. cbn [obind]. eauto.
Qed.

(** A cloud near enough to the coordinate origin is an acceptable request. *)
Lemma cloud_request : forall d r cloud, res_ok r -> matrix_ok cloud -> nrows cloud = d ->
  (forall p, In p (pc_points cloud) -> Forall (within_cells (2 ^ 18) r) p) -> request_ok d r (pc_bounds cloud).
Proof.
  intros d r cloud HR MO ND P. split; [rewrite <- ND; apply (pc_bounds_spec cloud MO)|].
  assert (LP : forall p, In p (pc_points cloud) -> length p = nrows cloud) by (intros p; now apply mcol_point_length).
  unfold pc_bounds. rewrite ND in *. assert (Z0 : within_cells (2 ^ 18) r f0).
  { split; [reflexivity|]. unfold real. cbn [B2R f0]. rewrite Rabs_R0. pose proof (res_ok_pos r HR). apply Rmult_le_pos; [apply IZR_le; lia|lra]. }
  assert (B0 : Forall (within_cells (2 ^ 18) r) (bmin (bounds_empty d)) /\ Forall (within_cells (2 ^ 18) r) (bmax (bounds_empty d))).
  { unfold bounds_empty, origin. cbn [bmin bmax]. split; apply repeat_Forall; exact Z0. }
  revert B0. generalize (bounds_empty d). induction (pc_points cloud) as [|p l IH]; intros b B; cbn [fold_left]; [exact B|].
  apply IH; [intros q Hq; apply P; now right|intros q Hq; apply LP; now right|]. destruct B as [B1 B2]. pose proof (P p ltac:(now left)) as Pp.
  unfold bounds_add_point. cbn [bmin bmax]. clear - B1 B2 Pp. split.
  - clear B2. revert B1. generalize (bmin b). induction Pp as [|x p Hx Hp IHp]; intros [|y l] B1; cbn [map2]; constructor; inversion B1; subst; auto. destruct (fltb x y); assumption.
  - clear B1. revert B2. generalize (bmax b). induction Pp as [|x p Hx Hp IHp]; intros [|y l] B1; cbn [map2]; constructor; inversion B1; subst; auto. destruct (fltb y x); assumption.
Qed.

(** ** Cell numbers after further clouds *)
Lemma integrate_keeps_indices : forall d r t fuel of oo m g o cloud g' db c, map_range d r t -> reachable d r t g ->
  is_order of -> is_order oo -> request_ok d r (pc_bounds cloud) ->
  bounds_discretized (pc_bounds cloud) r true = Ret db -> Forall2 fle (bmin (gm_bounds g)) (bmin db) ->
  in_range (nd_shape (gm_data g)) c ->
  integrate_point_cloud fuel of oo m g o cloud = Ret g' ->
  in_range (nd_shape (gm_data g')) c /\ gm_point_from_cell g' c = gm_point_from_cell g c.
Proof.
  intros d r t fuel of oo m g o cloud g' db c M H Hf Ho RQ Edb S1 I E. destruct (wf_of_reachable d r t g M H) as [cb W].
  destruct (integrate_spec fuel of oo m g o cloud g' Hf Ho (wf_storage _ _ _ _ _ W) E) as (g1 & free & occ & E1 & _ & _ & _ & Sh & B & R & _).
  destruct (expand_step d r t g cb (pc_bounds cloud) f0 M W RQ) as (db' & g2 & cb' & u & Edb' & E1' & W' & [U1 U2] & T1 & T2 & _ & SUB & _).
  assert (g2 = g1) by congruence. assert (db' = db) by congruence. subst g2 db'. clear E1' Edb'.
  destruct (disc_near d r (pc_bounds cloud) db (proj1 (proj2 M)) RQ Edb) as ((D1 & D2 & _) & _ & _ & _).
  pose proof W as [Wr _ Wo Wa Wn Wb Ws _]. pose proof W' as [Wr' _ Wo' _ Wn' Wb' Ws' _]. destruct M as (Hd & HR & Ht).
  assert (NE : cb <> cb_empty d). { intros ->. rewrite Ws in I. revert I. now apply empty_no_cells. }
  specialize (U2 NE). subst u. cbn [cmin cmax] in *.
  assert (LE : Forall2 Z.le (cmin cb) (cmin (cb_from_bounds db r))).
  { rewrite (from_bounds_map d) by assumption. cbn [cmin]. destruct (wf_cells d r cb HR Wo Wn) as [C1 _]. rewrite Wb in S1. rewrite <- C1.
    clear - S1 HR. induction S1; cbn [map]; constructor; auto. now apply wc_mono. }
  rewrite (min_id _ _ LE) in T1. assert (EC : cmin cb' = cmin cb) by (apply (aligned_fix t); [lia|apply Wa|now left]).
  assert (SC : sub_cells cb cb') by (destruct SUB; [contradiction|assumption]).
  assert (EB : bmin (gm_bounds g') = bmin (gm_bounds g)).
  { rewrite B, Wb, Wb', !(bfc_map d) by assumption. cbn [bmin]. now rewrite EC. }
  split; [|unfold gm_point_from_cell; rewrite EB; f_equal; congruence].
  rewrite Sh, Ws', EC. rewrite Ws in I. destruct SC as [_ S2]. clear - I S2. unfold in_range in *. revert c I. generalize (cmin cb).
  induction S2 as [|x y l l' Hx S2 IH]; intros [|z lo] c I; cbn [map2] in *; auto.
  inversion I; subst. constructor; [lia|]. now apply IH.
Qed.

(** ** Statements of the properties *)
Lemma default_signs : forall ln, ln_special ln -> ln_monotone ln -> exists m, lidar_default ln = Ret m /\ signs_ok m.
Proof.
  intros ln S Mo. unfold lidar_default, lidar_new. unfold oassert.
  repeat match goal with |- context [is_probability ?p] => replace (is_probability p) with true by (vm_compute; reflexivity) end. cbn [obind].
  eexists. split; [reflexivity|]. unfold signs_ok. cbn [hit_logodds miss_logodds min_logodds max_logodds].
  assert (Z0 : feqb (logodds_from_probability F32A ln fhalf) f0 = true) by apply (logodds_special ln S).
  apply feqb_iff in Z0. destruct Z0 as (N1 & N2 & Z0).
  assert (U : forall p, fleb fhalf p = true -> fleb p f1 = true -> fle f0 (logodds_from_probability F32A ln p)).
  { intros p H1 H2. assert (L : fle (logodds_from_probability F32A ln fhalf) (logodds_from_probability F32A ln p)) by (apply (logodds_monotone ln Mo); auto; vm_compute; reflexivity).
    apply fle_iff in L. destruct L as (_ & M1 & L). apply fle_iff. repeat split; auto. lra. }
  assert (D : forall p, fleb f0 p = true -> fleb p fhalf = true -> fle (logodds_from_probability F32A ln p) f0).
  { intros p H1 H2. assert (L : fle (logodds_from_probability F32A ln p) (logodds_from_probability F32A ln fhalf)) by (apply (logodds_monotone ln Mo); auto; vm_compute; reflexivity).
    apply fle_iff in L. destruct L as (M1 & _ & L). apply fle_iff. repeat split; auto. lra. }
  split; [apply U; vm_compute; reflexivity|]. split; [apply D; vm_compute; reflexivity|]. split; [apply D; vm_compute; reflexivity|apply U; vm_compute; reflexivity].
Qed.

Lemma occupied_iff : forall m g c v, finite (occupied_threshold_logodds m) -> finite v -> gm_get g c = Ret v ->
  exists b, occupied m g c = Ret b /\ (b = true <-> (real (occupied_threshold_logodds m) < real v)%R).
Proof.
  intros m g c v F1 F2 G. unfold occupied. rewrite G. cbn [obind]. eexists. split; [reflexivity|]. rewrite fltb_iff. unfold real. rewrite !ext_finite by assumption.
  split; [tauto|]. intro H. repeat split; auto; now apply is_finite_not_nan.
Qed.

Lemma integrate_tracks : forall fuel of oo m g o cloud g', is_order of -> is_order oo -> storage_ok (gm_data g) ->
  integrate_point_cloud fuel of oo m g o cloud = Ret g' ->
  exists g1 free occ l, gm_expand_bounds g (pc_bounds cloud) f0 = Ret g1 /\
    cast_rays fuel o cloud (gm_bounds g1) (gm_resolution g1) (max_range m) = Ret (free, occ) /\
    gm_track_changes g' = gm_track_changes g /\ gm_changed_cells g' = gm_changed_cells g ++ l /\
    (gm_track_changes g = false -> l = []) /\
    (gm_track_changes g = true -> NoDup l /\ (forall c, In c l <-> In c free \/ In c occ) /\
       (forall c, cells_in_isize c -> gm_get g' c <> gm_get g1 c -> In c l)).
Proof.
  intros fuel of oo m g o cloud g' Hf Ho S E.
  destruct (integrate_spec fuel of oo m g o cloud g' Hf Ho S E) as (g1 & free & occ & E1 & E2 & _ & _ & _ & _ & _ & _ & T & _ & _ & Other & On & Off).
  destruct (gm_track_changes g) eqn:Et.
  - destruct (On eq_refl) as (l & L1 & L2 & L3). exists g1, free, occ, l. repeat (split; [assumption|]). split; [discriminate|]. intros _. split; [assumption|]. split; [assumption|].
    intros c I N. apply L3. apply Classical_Prop.NNPP. intro K. apply N. apply Other; tauto.
  - exists g1, free, occ, []. repeat (split; [assumption|]). split; [rewrite app_nil_r; auto|]. split; [auto|discriminate].
Qed.

(** ** Single updates and sequences of them *)
Lemma hit_stores : forall m g c g', storage_ok (gm_data g) -> cells_in_isize c -> is_nan (max_logodds m) = false ->
  integrate_hit m g c = Ret g' ->
  (exists v, gm_get g' c = Ret v /\ is_nan v = false) /\
  (forall c', cells_in_isize c' -> c' <> c -> gm_get g' c' = gm_get g c').
Proof.
  intros m g c g' S I N H. destruct (upd_cell_spec (hit_value m) g c g' S I H) as (_ & _ & (v & _ & V) & O).
  split; [|exact O]. exists (hit_value m v). split; [exact V|now apply fmin_nan].
Qed.
Lemma miss_stores : forall m g c g', storage_ok (gm_data g) -> cells_in_isize c -> is_nan (min_logodds m) = false ->
  integrate_miss m g c = Ret g' ->
  (exists v, gm_get g' c = Ret v /\ is_nan v = false) /\
  (forall c', cells_in_isize c' -> c' <> c -> gm_get g' c' = gm_get g c').
Proof.
  intros m g c g' S I N H. destruct (upd_cell_spec (miss_value m) g c g' S I H) as (_ & _ & (v & _ & V) & O).
  split; [|exact O]. exists (miss_value m v). split; [exact V|now apply fmax_nan].
Qed.

Lemma updates_mono : forall (R : f32 -> f32 -> Prop) (P : f32 -> Prop) f cells g g' c v,
  (forall x, P x -> R x x) -> (forall x y z, R x y -> R y z -> R x z) -> (forall x, P x -> P (f x) /\ R x (f x)) ->
  storage_ok (gm_data g) -> Forall cells_in_isize cells -> cells_in_isize c ->
  gm_get g c = Ret v -> P v -> ofold (upd_cell f) g cells = Ret g' ->
  exists v', gm_get g' c = Ret v' /\ R v v' /\ P v'.
Proof.
  intros R P f cells. induction cells as [|a cells IH]; intros g g' c v Rr Rt Rf S F I G Pv H; cbn [ofold] in H.
  - injection H as <-. exists v. split; [assumption|]. split; [now apply Rr|assumption].
  - inversion F as [|? ? Fa F']; subst. destruct (upd_cell f g a) as [g1| |] eqn:E; try discriminate. cbn [obind] in H.
    destruct (upd_cell_spec f g a g1 S Fa E) as (S1 & _ & (w & W1 & W2) & O).
    destruct (list_eq_dec Z.eq_dec c a) as [->|Ne].
    + assert (w = v) as -> by congruence. destruct (Rf v Pv) as [Pf Rv].
      destruct (IH g1 g' a (f v) Rr Rt Rf S1 F' I W2 Pf H) as (v' & K1 & K2 & K3).
      exists v'. split; [assumption|]. split; [exact (Rt _ _ _ Rv K2)|assumption].
    + apply (IH g1 g' c v Rr Rt Rf S1 F' I); auto. rewrite O; auto.
Qed.

Lemma fle_refl_l : forall x y, fle x y -> fle x x.
Proof. intros x y H. apply fle_iff in H. apply fle_iff. intuition lra. Qed.
Lemma fle_refl_r : forall x y, fle x y -> fle y y.
Proof. intros x y H. apply fle_iff in H. apply fle_iff. intuition lra. Qed.

Lemma hits_raise : forall m cells g g' c v, fle f0 (hit_logodds m) -> storage_ok (gm_data g) ->
  Forall cells_in_isize cells -> cells_in_isize c -> gm_get g c = Ret v -> fle v (max_logodds m) ->
  ofold (integrate_hit m) g cells = Ret g' ->
  exists v', gm_get g' c = Ret v' /\ fle v v' /\ fle v' (max_logodds m) /\
  (occupied m g c = Ret true -> occupied m g' c = Ret true).
Proof.
  intros m cells g g' c v H1 S F I G H2 H.
  destruct (updates_mono fle (fun x => fle x (max_logodds m)) (hit_value m) cells g g' c v) as (v' & K1 & K2 & K3); auto.
  - intros x Hx. exact (fle_refl_l _ _ Hx).
  - exact fle_trans.
  - intros x Hx. destruct (hit_up m x H1 Hx) as [A B]. split; assumption.
  - exists v'. split; [assumption|]. split; [assumption|]. split; [assumption|]. unfold occupied. rewrite G, K1. cbn [obind].
    intro Q. injection Q as Q. rewrite (fltb_fle_trans _ v v' Q K2). reflexivity.
Qed.
Lemma misses_lower : forall m cells g g' c v, fle (miss_logodds m) f0 -> storage_ok (gm_data g) ->
  Forall cells_in_isize cells -> cells_in_isize c -> gm_get g c = Ret v -> fle (min_logodds m) v ->
  ofold (integrate_miss m) g cells = Ret g' ->
  exists v', gm_get g' c = Ret v' /\ fle v' v /\ fle (min_logodds m) v' /\
  (occupied m g c = Ret false -> occupied m g' c = Ret false).
Proof.
  intros m cells g g' c v H1 S F I G H2 H.
  destruct (updates_mono (fun x y => fle y x) (fun x => fle (min_logodds m) x) (miss_value m) cells g g' c v) as (v' & K1 & K2 & K3); auto.
  - intros x Hx. exact (fle_refl_r _ _ Hx).
  - intros x y z A B. exact (fle_trans _ _ _ B A).
  - intros x Hx. destruct (miss_down m x H1 Hx) as [A B]. split; assumption.
  - exists v'. split; [assumption|]. split; [assumption|]. split; [assumption|]. unfold occupied. rewrite G, K1. cbn [obind].
    intro Q. injection Q as Q. rewrite (fltb_fle_false _ v v' Q K2). reflexivity.
Qed.

Lemma tracking_switches : forall (A : Type) (g : grid_map A) x,
  let same g' := gm_data g' = gm_data g /\ gm_bounds g' = gm_bounds g /\ gm_resolution g' = gm_resolution g /\ gm_tile_size g' = gm_tile_size g in
  (let g' := gm_clear_changed_cells g in same g' /\ gm_changed_cells g' = [] /\ gm_track_changes g' = gm_track_changes g) /\
  (let g' := gm_set_track_changes g x in same g' /\ gm_changed_cells g' = gm_changed_cells g /\ gm_track_changes g' = x).
Proof. intros. cbv zeta. repeat split. Qed.

(** ** The default model *)
Lemma default_model : forall ln d, exists m, lidar_default ln = Ret m /\ om_default d ln = om_new d m (f32_lit 1 10) 100 /\
  let logodds p := ln (fdiv p (fsub f1 p)) in
  hit_logodds m = logodds (f32_lit 7 10) /\ miss_logodds m = logodds (f32_lit 4 10) /\ min_logodds m = logodds (f32_lit 1192 10000) /\
  max_logodds m = logodds (f32_lit 971 1000) /\ occupied_threshold_logodds m = logodds (f32_lit 1 2) /\ max_range m = f32_lit 60 1.
Proof.
  intros ln d.
  destruct (proj1 (lidar_new_spec ln (f32_lit 7 10) (f32_lit 4 10) (f32_lit 1192 10000) (f32_lit 971 1000) (f32_lit 1 2) (f32_lit 60 1))) as (m & E & H).
  { repeat (apply Forall_cons; [apply is_probability_iff; vm_compute; reflexivity|]). apply Forall_nil. }
  exists m. assert (L : lidar_default ln = Ret m).
  { rewrite <- E. unfold lidar_default. f_equal. apply B2SF_inj. vm_compute. reflexivity. }
  split; [exact L|]. split; [|exact H]. unfold om_default. rewrite L. reflexivity.
Qed.
