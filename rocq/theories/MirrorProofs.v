(** Mirror images of floats. *)
From Coq Require Import ZArith List Bool Reals Lia Lra SpecFloat Permutation.
From Flocq Require Import Core BinarySingleNaN.
From Verif Require Import Base F32 FloatFacts Arith Geom RayCaster Spec SpecRay NdProofs RayProofs CastProofs RaysProofs MergeProofs.
Open Scope Z_scope.

(** ** Rounding to nearest does not see the sign *)
Lemma round_aux_opp : forall s m e l,
  binary_round_aux 24 128 mode_NE (negb s) m e l = SFopp (binary_round_aux 24 128 mode_NE s m e l).
Proof.
  intros s m e l. unfold binary_round_aux. destruct (shr_fexp _ _ m e l) as [mrs e']. cbn [choice_mode].
  destruct (shr_fexp 24 128 _ e' loc_Exact) as [mrs2 e2]. destruct (shr_m mrs2); try reflexivity.
  unfold binary_fit_aux. destruct (Zle_bool _ _); reflexivity.
Qed.
Lemma neg_SF : forall x, B2SF (fneg x) = SFopp (B2SF x).
Proof. intros [s|s| |s m e H]; reflexivity. Qed.
Lemma neg_neg : forall x, fneg (fneg x) = x.
Proof. intro x. apply Bopp_involutive. Qed.
Lemma mul_neg_l : forall x y, fmul (fneg x) y = fneg (fmul x y).
Proof.
  intros [sx|sx| |sx mx ex Hx] [sy|sy| |sy my ey Hy]; try reflexivity; cbn [fmul fneg Bmult Bopp]; try (f_equal; now destruct sx, sy).
  apply B2SF_inj. rewrite neg_SF. cbn [fneg Bopp Bmult fmul]. unfold fmul, fneg. cbn [Bopp Bmult]. rewrite !B2SF_SF2B.
  replace (xorb (negb sx) sy) with (negb (xorb sx sy)) by now destruct sx, sy. apply round_aux_opp.
Qed.
Lemma mul_neg_r : forall x y, fmul x (fneg y) = fneg (fmul x y).
Proof.
  intros [sx|sx| |sx mx ex Hx] [sy|sy| |sy my ey Hy]; try reflexivity; cbn [fmul fneg Bmult Bopp]; try (f_equal; now destruct sx, sy).
  apply B2SF_inj. rewrite neg_SF. unfold fmul, fneg. cbn [Bopp Bmult]. rewrite !B2SF_SF2B.
  replace (xorb sx (negb sy)) with (negb (xorb sx sy)) by now destruct sx, sy. apply round_aux_opp.
Qed.
Lemma div_neg_l : forall x y, fdiv (fneg x) y = fneg (fdiv x y).
Proof.
  intros [sx|sx| |sx mx ex Hx] [sy|sy| |sy my ey Hy]; try reflexivity; cbn [fdiv fneg Bdiv Bopp]; try (f_equal; now destruct sx, sy).
  apply B2SF_inj. rewrite neg_SF. unfold fdiv, fneg. cbn [Bopp Bdiv]. rewrite !B2SF_SF2B.
  replace (xorb (negb sx) sy) with (negb (xorb sx sy)) by now destruct sx, sy. destruct (SFdiv_core_binary _ _ _ _ _ _) as [[q e'] l']. apply round_aux_opp.
Qed.
Lemma div_neg_r : forall x y, fdiv x (fneg y) = fneg (fdiv x y).
Proof.
  intros [sx|sx| |sx mx ex Hx] [sy|sy| |sy my ey Hy]; try reflexivity; cbn [fdiv fneg Bdiv Bopp]; try (f_equal; now destruct sx, sy).
  apply B2SF_inj. rewrite neg_SF. unfold fdiv, fneg. cbn [Bopp Bdiv]. rewrite !B2SF_SF2B.
  replace (xorb sx (negb sy)) with (negb (xorb sx sy)) by now destruct sx, sy. destruct (SFdiv_core_binary _ _ _ _ _ _) as [[q e'] l']. apply round_aux_opp.
Qed.

(** ** Equal but for the sign of zero *)
Definition is_zero (x : f32) : bool := match x with B754_zero _ => true | _ => false end.
Definition zeq (x y : f32) : Prop := x = y \/ (is_zero x = true /\ is_zero y = true).
Lemma zeq_refl : forall x, zeq x x.
Proof. now left. Qed.
Lemma zeq_trans : forall x y z, zeq x y -> zeq y z -> zeq x z.
Proof. intros x y z [->|[A B]] [<- |[C D]]; try (now left); right; auto. Qed.
Lemma zeq_neg : forall x y, zeq x y -> zeq (fneg x) (fneg y).
Proof. intros x y [->|[A B]]; [apply zeq_refl|right]. now destruct x, y. Qed.
Ltac zeros H := destruct H as [->|[?H1 ?H2]].
Ltac zcases := repeat match goal with H : is_zero ?x = true |- _ => destruct x; try discriminate H; clear H end.
Lemma zeq_add : forall x x' y y', zeq x x' -> zeq y y' -> zeq (fadd x y) (fadd x' y').
Proof.
  intros x x' y y' H K. zeros H; zeros K; try apply zeq_refl; zcases; unfold fadd; cbn [Bplus].
  - destruct x' as [s'|s'| |s' m e B]; try apply zeq_refl. right; split; cbn; repeat destruct (Bool.eqb _ _); reflexivity.
  - destruct y' as [s'|s'| |s' m e B]; try apply zeq_refl. right; split; cbn; repeat destruct (Bool.eqb _ _); reflexivity.
  - right; split; cbn; repeat destruct (Bool.eqb _ _); reflexivity.
Qed.
Lemma zeq_mul_l : forall x x' y, zeq x x' -> zeq (fmul x y) (fmul x' y).
Proof. intros x x' y H. zeros H; [apply zeq_refl|]. zcases. unfold fmul; destruct y; cbn [Bmult]; try apply zeq_refl; now right. Qed.
Lemma zeq_div_l : forall x x' y, zeq x x' -> zeq (fdiv x y) (fdiv x' y).
Proof. intros x x' y H. zeros H; [apply zeq_refl|]. zcases. unfold fdiv; destruct y; cbn [Bdiv]; try apply zeq_refl; now right. Qed.
Lemma zeq_ltb : forall x x' y y', zeq x x' -> zeq y y' -> fltb x y = fltb x' y'.
Proof. intros x x' y y' H K. zeros H; zeros K; try reflexivity; zcases; reflexivity. Qed.
Lemma zeq_eqb0 : forall x x', zeq x x' -> feqb x f0 = feqb x' f0.
Proof. intros x x' H. zeros H; [reflexivity|]. zcases. reflexivity. Qed.
Lemma normalize_neg : forall m e, zeq (binary_normalize 24 128 _ _ mode_NE (- m) e false) (fneg (binary_normalize 24 128 _ _ mode_NE m e false)).
Proof.
  intros [|m|m] e; [now right| |]; left; apply B2SF_inj; rewrite neg_SF; unfold binary_normalize; cbn [Z.opp]; rewrite !B2SF_SF2B;
    unfold binary_round; destruct (shl_align_fexp _ _ m e) as [mz ez]; [exact (round_aux_opp false _ _ _)|exact (round_aux_opp true _ _ _)].
Qed.
Lemma of_Z_neg : forall z, zeq (f32_of_Z (- z)) (fneg (f32_of_Z z)).
Proof. intro z. apply normalize_neg. Qed.
Lemma add_neg : forall x y, zeq (fadd (fneg x) (fneg y)) (fneg (fadd x y)).
Proof.
  intros [sx|sx| |sx mx ex Hx] [sy|sy| |sy my ey Hy]; unfold fadd, fneg; cbn [Bplus Bopp]; try apply zeq_refl.
  - destruct sx, sy; cbn; (apply zeq_refl || now right).
  - destruct sx, sy; cbn; apply zeq_refl.
  - replace (Fplus_naive (negb sx) mx ex (negb sy) my ey (Z.min ex ey)) with (- Fplus_naive sx mx ex sy my ey (Z.min ex ey)); [apply normalize_neg|].
    unfold Fplus_naive. destruct sx, sy; cbn [negb cond_Zopp]; lia.
Qed.
Lemma sub_add : forall x y, fsub x y = fadd x (fneg y).
Proof. intros [sx|sx| |sx mx ex Hx] [sy|sy| |sy my ey Hy]; try reflexivity; unfold fsub, fadd, fneg; cbn [Bminus Bplus Bopp]; try reflexivity. Qed.

(** ** One axis *)
Definition mir (f : bool) (x y : f32) : Prop := if f then zeq y (fneg x) else zeq y x.
Lemma mir_self : forall f x, mir f x (if f then fneg x else x).
Proof. intros [|] x; apply zeq_refl. Qed.
Lemma mir_add : forall f x x' y y', mir f x x' -> mir f y y' -> mir f (fadd x y) (fadd x' y').
Proof.
  intros [|] x x' y y' H K; cbn [mir] in *; [|now apply zeq_add]. eapply zeq_trans; [apply zeq_add; [exact H|exact K]|apply add_neg].
Qed.
Lemma mir_neg : forall f x x', mir f x x' -> mir f (fneg x) (fneg x').
Proof. intros [|] x x' H; cbn [mir] in *; now apply zeq_neg. Qed.
Lemma mir_sub : forall f x x' y y', mir f x x' -> mir f y y' -> mir f (fsub x y) (fsub x' y').
Proof. intros f x x' y y' H K. rewrite !sub_add. apply mir_add; [exact H|now apply mir_neg]. Qed.
Lemma mir_mul : forall f x x' y, mir f x x' -> mir f (fmul x y) (fmul x' y).
Proof. intros [|] x x' y H; cbn [mir] in *; [rewrite <- mul_neg_l|]; now apply zeq_mul_l. Qed.
Lemma mir_div : forall f x x' y, mir f x x' -> mir f (fdiv x y) (fdiv x' y).
Proof. intros [|] x x' y H; cbn [mir] in *; [rewrite <- div_neg_l|]; now apply zeq_div_l. Qed.
Lemma mir_square : forall f x x', mir f x x' -> fmul x' x' = fmul x x.
Proof.
  intros [|] x x' H; cbn [mir] in H; zeros H.
  - now rewrite mul_neg_l, mul_neg_r, neg_neg.
  - destruct x; try discriminate H2. destruct x'; try discriminate H1. now destruct s, s0.
  - reflexivity.
  - zcases. now destruct s, s0.
Qed.
Lemma nearest_neg : forall x, ZnearestA (- x)%R = - ZnearestA x.
Proof.
  intro x. rewrite Znearest_opp. f_equal. unfold Znearest. destruct (Rcompare _ _); try reflexivity.
  replace (negb (0 <=? - (Zfloor x + 1))) with (0 <=? Zfloor x); [reflexivity|].
  destruct (Z.leb_spec 0 (Zfloor x)), (Z.leb_spec 0 (- (Zfloor x + 1))); try reflexivity; lia.
Qed.
Lemma ext_neg : forall x, ext (fneg x) = (- ext x)%R.
Proof.
  intros [s|[|]| |s m e H]; unfold ext, fneg; cbn [Bopp]; try (cbn; lra).
  change (B754_finite (negb s) m e H) with (Bopp (B754_finite s m e H)). apply B2R_Bopp.
Qed.
Lemma zeq_isize : forall x y, zeq x y -> f32_to_isize (fround x) = f32_to_isize (fround y).
Proof. intros x y H. zeros H; [reflexivity|]. zcases. reflexivity. Qed.
(** Far from the ends of isize. *)
Definition moderate (z : Z) : Prop := Z.abs z <= 2 ^ 62.
Lemma round_neg : forall x, moderate (f32_to_isize (fround x)) -> f32_to_isize (fround (fneg x)) = - f32_to_isize (fround x).
Proof.
  intros x M. destruct (is_nan x) eqn:N; [destruct x; try discriminate N; reflexivity|].
  assert (N' : is_nan (fneg x) = false) by now destruct x. rewrite (round_to_isize _ N) in *. rewrite (round_to_isize _ N'), ext_neg, nearest_neg.
  unfold moderate, sat, isize_min, isize_max in *. lia.
Qed.
Lemma mir_isize : forall f x x', mir f x x' -> moderate (f32_to_isize (fround x)) ->
  f32_to_isize (fround x') = if f then - f32_to_isize (fround x) else f32_to_isize (fround x).
Proof. intros [|] x x' H M; cbn [mir] in H; rewrite (zeq_isize _ _ H); [now apply round_neg|reflexivity]. Qed.
Lemma mir_of_Z : forall (f : bool) z, mir f (f32_of_Z z) (f32_of_Z (if f then - z else z)).
Proof. intros [|] z; [apply of_Z_neg|apply zeq_refl]. Qed.
Lemma mir_coord : forall (f : bool) z b r, mir f (point_coord_from_cell_coord F32A z b r) (point_coord_from_cell_coord F32A (if f then - z else z) (if f then fneg b else b) r).
Proof. intros f z b r. apply mir_add; [apply mir_mul, mir_of_Z|apply mir_self]. Qed.
Lemma mir_cell : forall (f : bool) p b r, moderate (cell_coord_from_point_coord F32A p b r) ->
  cell_coord_from_point_coord F32A (if f then fneg p else p) (if f then fneg b else b) r =
  if f then - cell_coord_from_point_coord F32A p b r else cell_coord_from_point_coord F32A p b r.
Proof. intros f p b r M. apply mir_isize; [|exact M]. apply mir_div, mir_sub; apply mir_self. Qed.
Lemma mir_zero : forall f x x', mir f x x' -> feqb x' f0 = feqb x f0.
Proof. intros [|] x x' H; cbn [mir] in H; rewrite (zeq_eqb0 _ _ H); [now destruct x as [?s|[|]| |[|] ?m ?e ?H]|reflexivity]. Qed.
Lemma nonzero_exact : forall f x x', mir f x x' -> feqb x f0 = false -> x' = if f then fneg x else x.
Proof. intros [|] x x' H N; cbn [mir] in H; zeros H; try reflexivity; exfalso; [destruct x|zcases]; try discriminate. Qed.
Lemma signum_neg : forall x, is_nan x = false -> feqb x f0 = false -> f32_signum (fneg x) = fneg (f32_signum x).
Proof.
  intros x N Z0. unfold f32_signum, signum1. cbn [teqb tltb tzero tone tmone F32A].
  replace (feqb (fneg x) f0) with false by (now destruct x as [?s|[|]| |[|] ?m ?e ?H]). rewrite Z0.
  destruct x as [s|[|]| |[|] m e H]; try discriminate; apply B2SF_inj; reflexivity.
Qed.
Lemma mir_signum : forall f x x', mir f x x' -> is_nan x = false -> mir f (f32_signum x) (f32_signum x').
Proof.
  intros f x x' H N. destruct (feqb x f0) eqn:Z0.
  - pose proof (mir_zero _ _ _ H) as Z1. unfold f32_signum, signum1. cbn [teqb tltb tzero tone tmone F32A]. rewrite Z1, Z0. destruct f; [now right|now left].
  - rewrite (nonzero_exact _ _ _ H Z0). destruct f; [|apply zeq_refl]. rewrite signum_neg by assumption. apply zeq_refl.
Qed.
Lemma mir_step : forall f x x', mir f x x' -> is_nan x = false -> f32_to_isize (f32_signum x') = if f then - f32_to_isize (f32_signum x) else f32_to_isize (f32_signum x).
Proof.
  intros f x x' H N. destruct (feqb x f0) eqn:Z0.
  - pose proof (mir_zero _ _ _ H) as Z1. unfold f32_signum, signum1. cbn [teqb tltb tzero tone tmone F32A]. rewrite Z1, Z0. now destruct f.
  - rewrite (nonzero_exact _ _ _ H Z0). destruct f; [|reflexivity]. rewrite signum_neg by assumption.
    unfold f32_signum, signum1. cbn [teqb tltb tzero tone tmone F32A]. rewrite Z0. destruct (fltb f0 x); reflexivity.
Qed.
Lemma abs_neg : forall x, fabs (fneg x) = fabs x.
Proof. intros [| | |]; reflexivity. Qed.
Lemma mir_t_delta : forall f d d' r, mir f d d' -> is_nan d = false -> axis_t_delta F32A (f32_signum d') d' r = axis_t_delta F32A (f32_signum d) d r.
Proof.
  intros f d d' r H N. unfold axis_t_delta. cbn [teqb tzero tinf tdiv tabs F32A].
  pose proof (mir_zero _ _ _ (mir_signum _ _ _ H N)) as S0. rewrite S0. destruct (feqb (f32_signum d) f0) eqn:E; [reflexivity|].
  assert (Z0 : feqb d f0 = false). { destruct (feqb d f0) eqn:Z0; [|reflexivity]. exfalso. unfold f32_signum, signum1 in E. cbn [teqb tzero tinf tdiv tabs F32A] in E. rewrite Z0 in E. discriminate E. }
  rewrite (nonzero_exact _ _ _ H Z0). destruct f; [now rewrite abs_neg|reflexivity].
Qed.
Lemma mir_t_max : forall (f : bool) d d' o b r (c : Z), mir f d d' -> is_nan d = false ->
  zeq (axis_t_max F32A (f32_signum d') (if f then fneg b else b) (if f then fneg o else o) d' r (if f then - c else c)) (axis_t_max F32A (f32_signum d) b o d r c).
Proof.
  intros f d d' o b r c H N. unfold axis_t_max. cbn [teqb tzero tinf tdiv tsub tadd tmul thalf F32A].
  pose proof (mir_zero _ _ _ (mir_signum _ _ _ H N)) as S0. rewrite S0. destruct (feqb (f32_signum d) f0) eqn:E; [apply zeq_refl|].
  assert (Z0 : feqb d f0 = false). { destruct (feqb d f0) eqn:Z0; [|reflexivity]. exfalso. unfold f32_signum, signum1 in E. cbn [teqb tzero tinf tdiv tabs F32A] in E. rewrite Z0 in E. discriminate E. }
  assert (X : mir f (fsub (fadd (point_coord_from_cell_coord F32A c b r) (fmul (fmul (f32_signum d) r) fhalf)) o)
                    (fsub (fadd (point_coord_from_cell_coord F32A (if f then - c else c) (if f then fneg b else b) r) (fmul (fmul (f32_signum d') r) fhalf)) (if f then fneg o else o))).
  { apply mir_sub; [|apply mir_self]. apply mir_add; [apply mir_coord|]. apply mir_mul, mir_mul, mir_signum; assumption. }
  pose proof (nonzero_exact _ _ _ H Z0) as D. subst d'. destruct f; cbn [mir] in X; [|now apply zeq_div_l].
  rewrite div_neg_r. eapply zeq_trans; [apply zeq_neg, zeq_div_l, X|]. rewrite div_neg_l, neg_neg. apply zeq_refl.
Qed.

(** ** All axes *)
Inductive mirl : list bool -> point -> point -> Prop :=
| mirl_nil : mirl [] [] []
| mirl_cons : forall f fl x p x' p', mir f x x' -> mirl fl p p' -> mirl (f :: fl) (x :: p) (x' :: p').
Lemma mirl_self : forall fl p, length fl = length p -> mirl fl p (mirrored fl p).
Proof. induction fl as [|f fl IH]; intros [|x p] L; try discriminate L; constructor; [apply mir_self|apply IH; now injection L]. Qed.
Lemma mirl_sub : forall fl p p' q q', mirl fl p p' -> mirl fl q q' -> mirl fl (vsub F32A p q) (vsub F32A p' q').
Proof. intros fl p p' q q' H. revert q q'. induction H; intros q q' K; inversion K; subst; constructor; [now apply mir_sub|now apply IHmirl]. Qed.
Lemma mirl_divs : forall fl p p' s, mirl fl p p' -> mirl fl (vdivs F32A p s) (vdivs F32A p' s).
Proof. intros fl p p' s H. induction H; constructor; [now apply mir_div|exact IHmirl]. Qed.
Lemma mirl_norm2 : forall fl p p', mirl fl p p' -> norm_squared F32A p' = norm_squared F32A p.
Proof.
  intros fl p p' H. unfold norm_squared, dot_self. replace (map (fun x => tmul F32A x x) p') with (map (fun x => tmul F32A x x) p); [reflexivity|].
  induction H as [|f fl x p x' p' H _ IH]; [reflexivity|]. cbn [map]. f_equal; [symmetry; exact (mir_square f x x' H)|exact IH].
Qed.
Lemma mirl_points : forall fl c b r, length fl = length c -> length fl = length b ->
  mirl fl (point_from_cell F32A c b r) (point_from_cell F32A (mirrored_cell fl c) (mirrored fl b) r).
Proof. induction fl as [|f fl IH]; intros [|x c] [|y b] r L K; try discriminate; [exact mirl_nil|]. apply mirl_cons; [apply mir_coord|apply IH; [now injection L|now injection K]]. Qed.
Lemma mirl_cells : forall fl p b r, length fl = length p -> length fl = length b -> Forall moderate (cell_from_point F32A p b r) ->
  cell_from_point F32A (mirrored fl p) (mirrored fl b) r = mirrored_cell fl (cell_from_point F32A p b r).
Proof.
  induction fl as [|f fl IH]; intros [|x p] [|y b] r L K M; try discriminate; [reflexivity|].
  unfold cell_from_point, mirrored, mirrored_cell in *. cbn [map2] in *. inversion M; subst. f_equal; [now apply mir_cell|apply IH; [now injection L|now injection K|assumption]].
Qed.
Lemma mirl_t_delta : forall fl p p' r, mirl fl p p' -> Forall (fun x => is_nan x = false) p ->
  init_t_delta F32A (signum F32A p') p' r = init_t_delta F32A (signum F32A p) p r.
Proof.
  intros fl p p' r H N. induction H as [|f fl x p x' p' H _ IH]; [reflexivity|]. inversion N; subst. unfold init_t_delta, signum in *. cbn [map map2]. f_equal; [eapply mir_t_delta; eassumption|now apply IH].
Qed.
Lemma mirl_t_max : forall fl p p' b o r c, mirl fl p p' -> Forall (fun x => is_nan x = false) p -> length fl = length b -> length fl = length o -> length fl = length c ->
  Forall2 zeq (init_t_max F32A (signum F32A p') (mirrored fl b) (mirrored fl o) p' r (mirrored_cell fl c)) (init_t_max F32A (signum F32A p) b o p r c).
Proof.
  intros fl p p' b o r c H. revert b o c. induction H as [|f fl x p x' p' H _ IH]; intros b o c N Lb Lo Lc; [constructor|].
  destruct b as [|b0 b]; [discriminate|]. destruct o as [|o0 o]; [discriminate|]. destruct c as [|c0 c]; [discriminate|]. inversion N; subst.
  unfold signum, mirrored, mirrored_cell in *. cbn [map map2 init_t_max]. constructor; [now apply mir_t_max|apply IH; [assumption|now injection Lb|now injection Lo|now injection Lc]].
Qed.
Lemma mirl_steps : forall fl p p', mirl fl p p' -> Forall (fun x => is_nan x = false) p ->
  map f32_to_isize (signum F32A p') = mirrored_cell fl (map f32_to_isize (signum F32A p)).
Proof.
  intros fl p p' H N. induction H as [|f fl x p x' p' H _ IH]; [reflexivity|]. inversion N; subst. unfold signum, mirrored_cell in *. cbn [map map2]. f_equal; [now apply mir_step|now apply IH].
Qed.
Lemma mirrored_nth : forall fl c k, length fl = length c -> nth k (mirrored_cell fl c) 0 = if nth k fl false then - nth k c 0 else nth k c 0.
Proof. induction fl as [|f fl IH]; intros [|x c] k L; try discriminate L; destruct k as [|k]; try reflexivity. cbn [nth]. unfold mirrored_cell. cbn [map2 nth]. apply IH. now injection L. Qed.
Lemma mirrored_upd : forall fl c k x, length fl = length c ->
  upd (mirrored_cell fl c) k (if nth k fl false then - x else x) = mirrored_cell fl (upd c k x).
Proof. induction fl as [|f fl IH]; intros [|y c] k x L; try discriminate L; destruct k as [|k]; try reflexivity. unfold mirrored_cell in *. cbn [upd map2 nth]. f_equal. apply IH. now injection L. Qed.
Lemma mirrored_twice : forall fl c, length fl = length c -> mirrored_cell fl (mirrored_cell fl c) = c.
Proof. induction fl as [|f fl IH]; intros [|y c] L; try discriminate L; [reflexivity|]. unfold mirrored_cell in *. cbn [map2]. f_equal; [destruct f; lia|apply IH; now injection L]. Qed.
Lemma mirrored_eqb : forall fl c e, length fl = length c -> length fl = length e -> cell_eqb (mirrored_cell fl c) (mirrored_cell fl e) = cell_eqb c e.
Proof.
  intros fl c e L K. destruct (cell_eqb c e) eqn:E.
  - apply cell_eqb_eq in E. subst e. now apply cell_eqb_eq.
  - apply cell_eqb_neq in E. apply cell_eqb_neq. intro Q. apply E. rewrite <- (mirrored_twice fl c L), <- (mirrored_twice fl e K). now f_equal.
Qed.
Lemma zeq_select : forall t t', Forall2 zeq t' t -> select_dim F32A t' = select_dim F32A t.
Proof.
  intros t t' H. assert (N : forall k, zeq (nth k t' finf) (nth k t finf)). { induction H; intros [|k]; cbn [nth]; try apply zeq_refl; auto. }
  unfold select_dim. change (T F32A) with f32. rewrite <- (Forall2_length _ _ _ H). cbn [tltb tinf F32A].
  rewrite (zeq_ltb _ _ _ _ (N 0%nat) (N 1%nat)), (zeq_ltb _ _ _ _ (N 0%nat) (N 2%nat)), (zeq_ltb _ _ _ _ (N 1%nat) (N 2%nat)). reflexivity.
Qed.
Lemma zeq_upd : forall t t' k s, Forall2 zeq t' t -> Forall2 zeq (upd t' k (fadd (nth k t' finf) s)) (upd t k (fadd (nth k t finf) s)).
Proof. intros t t' k s H. revert k. induction H; intros [|k]; cbn [upd nth]; constructor; auto. apply zeq_add; [assumption|apply zeq_refl]. Qed.
Lemma upd_length : forall (c : cell) k x, length (upd c k x) = length c.
Proof. induction c as [|y c IH]; intros [|k] x; cbn [upd length]; auto. Qed.
Lemma upd_bound : forall (c : cell) k x m, Forall (fun y => Z.abs y <= m) c -> Z.abs x <= m + 1 -> Forall (fun y => Z.abs y <= m + 1) (upd c k x).
Proof.
  intros c k x m H Hx. revert k. induction H as [|y c Hy H IH]; intros [|k]; cbn [upd]; constructor; try assumption; try lia; [|apply IH].
  revert H. apply Forall_impl. intros; lia.
Qed.
Lemma step_small : forall p k, -1 <= f32_to_isize (nth k (signum F32A p) f0) <= 1.
Proof.
  intro p. unfold signum. induction p as [|x p IH]; intros [|k]; cbn [map nth]; try (change (f32_to_isize f0) with 0; lia); [|apply IH].
  unfold signum1. cbn [teqb tltb tzero tone tmone F32A]. change (f32_to_isize f0) with 0.
  destruct (feqb x f0); [change (f32_to_isize f0) with 0; lia|]. destruct (fltb f0 x); [change (f32_to_isize f1) with 1|change (f32_to_isize fm1) with (-1)]; lia.
Qed.
Lemma loop_mirrored : forall fuel fl o b r m ec p p' td cur tm tm' acc, mirl fl p p' -> Forall (fun x => is_nan x = false) p ->
  length fl = length o -> length fl = length b -> length fl = length ec -> length fl = length cur -> Forall2 zeq tm' tm ->
  (exists n, Forall (fun y => Z.abs y <= n) cur /\ 0 <= n /\ n + Z.of_nat fuel <= isize_max) ->
  ray_loop F32A fuel (mkEnv F32A (mirrored fl o) (mirrored fl b) r m (mirrored_cell fl ec) (signum F32A p') td) (mirrored_cell fl cur) tm' (map (mirrored_cell fl) acc) =
  obind (ray_loop F32A fuel (mkEnv F32A o b r m ec (signum F32A p) td) cur tm acc) (fun x => Ret (mirrored_ray fl x)).
Proof.
  induction fuel as [|fuel IH]; intros fl o b r m ec p p' td cur tm tm' acc H N Lo Lb Le Lc Z0 (n & B & n0 & Hn); [reflexivity|].
  cbn [ray_loop re_step re_end_cell re_t_delta]. rewrite (zeq_select _ _ Z0). set (k := select_dim F32A tm).
  assert (Lp : length fl = length p) by (clear - H; induction H; cbn; congruence).
  assert (SP : forall q, t_to_isize F32A (nth k (signum F32A q) (tzero F32A)) = nth k (map f32_to_isize (signum F32A q)) 0).
  { intro q. change 0 with (f32_to_isize f0) at 1. now rewrite map_nth. }
  assert (S1 : -1 <= nth k (map f32_to_isize (signum F32A p)) 0 <= 1). { rewrite <- SP. apply step_small. }
  rewrite !SP, (mirl_steps _ _ _ H N), !mirrored_nth by (rewrite ?map_length; unfold signum; rewrite ?map_length; assumption).
  set (s := nth k (map f32_to_isize (signum F32A p)) 0) in *. set (y := nth k cur 0).
  assert (By : Z.abs y <= n \/ y = 0). { destruct (nth_in_or_default k cur 0) as [I|D]; [left; rewrite Forall_forall in B; now apply B|now right]. }
  assert (X1 : in_isize (y + s) = true) by (unfold in_isize, isize_min, isize_max in *; apply andb_true_intro; split; apply Z.leb_le; lia).
  assert (X2 : in_isize (- (y + s)) = true) by (unfold in_isize, isize_min, isize_max in *; apply andb_true_intro; split; apply Z.leb_le; lia).
  assert (XM : ((if nth k fl false then - y else y) + (if nth k fl false then - s else s))%Z = if nth k fl false then - (y + s) else y + s) by (destruct (nth k fl false); lia).
  rewrite XM. unfold isz. replace (in_isize (if nth k fl false then - (y + s) else y + s)) with true by (now destruct (nth k fl false)). rewrite X1. cbn [obind].
  rewrite mirrored_upd by assumption. set (cur1 := upd cur k (y + s)). assert (L1 : length fl = length cur1) by (unfold cur1; now rewrite upd_length).
  rewrite mirrored_eqb by assumption. destruct (cell_eqb cur1 ec); [reflexivity|].
  assert (TF : too_far F32A (mkEnv F32A (mirrored fl o) (mirrored fl b) r m (mirrored_cell fl ec) (signum F32A p') td) (mirrored_cell fl cur1) = too_far F32A (mkEnv F32A o b r m ec (signum F32A p) td) cur1).
  { unfold too_far. cbn [re_max_len re_bmin re_resolution re_origin]. rewrite (mirl_norm2 fl (vsub F32A (point_from_cell F32A cur1 b r) o)); [reflexivity|].
    apply mirl_sub; [now apply mirl_points|now apply mirl_self]. }
  rewrite TF. destruct (too_far _ _ cur1); [reflexivity|].
  change [mirrored_cell fl cur1] with (map (mirrored_cell fl) [cur1]). rewrite <- map_app. apply IH; try assumption.
  - now apply zeq_upd.
  - exists (n + 1). split; [apply upd_bound; [exact B|lia]|]. split; lia.
Qed.
Lemma ray_mirrored : forall fl fuel d (o e b : point) r m, (d = 2 \/ d = 3)%nat -> length fl = d -> length o = d -> length e = d -> length b = d ->
  Forall (fun x => is_nan x = false) (direction o e) ->
  Forall moderate (cell_from_point F32A o b r) -> Forall moderate (cell_from_point F32A e b r) -> Z.of_nat fuel < 2 ^ 62 ->
  cast_ray F32A fuel (mirrored fl o) (mirrored fl e) (mirrored fl b) r m =
  obind (cast_ray F32A fuel o e b r m) (fun x => Ret (mirrored_ray fl x)).
Proof.
  intros fl fuel d o e b r m Hd Lf Lo Le Lb N Mo Me Hf. unfold cast_ray.
  assert (ML : length (mirrored fl o) = length o). { clear - Lf Lo. subst d. revert o Lo. induction fl as [|f fl IH]; intros [|x o] L; try discriminate L; [reflexivity|]. unfold mirrored in *. cbn [map2 length]. f_equal. apply IH. now injection L. }
  change (T F32A) with f32. rewrite ML. destruct (_ || _); [|reflexivity]. cbn [oassert obind]. assert (LL : forall q : point, length q = d -> length fl = length q) by (intros; congruence). rewrite (mirl_cells fl o b r), (mirl_cells fl e b r) by auto.
  set (oc := cell_from_point F32A o b r) in *. set (ec := cell_from_point F32A e b r) in *.
  assert (Lc : length oc = d) by (unfold oc, cell_from_point; now apply map2_len). assert (Lec : length ec = d) by (unfold ec, cell_from_point; now apply map2_len).
  rewrite mirrored_eqb by congruence. destruct (cell_eqb oc ec); [reflexivity|].
  assert (V : mirl fl (vsub F32A e o) (vsub F32A (mirrored fl e) (mirrored fl o))) by (apply mirl_sub; apply mirl_self; auto).
  assert (E : norm F32A (vsub F32A (mirrored fl e) (mirrored fl o)) = norm F32A (vsub F32A e o)) by (unfold norm; now rewrite (mirl_norm2 _ _ _ V)).
  rewrite E. pose proof (mirl_divs _ _ _ (norm F32A (vsub F32A e o)) V) as D.
  set (p := vdivs F32A (vsub F32A e o) (norm F32A (vsub F32A e o))) in *. assert (EP : p = direction o e) by (apply (dir_env d); assumption). rewrite <- EP in N.
  rewrite (mirl_t_delta _ _ _ r D N). change [mirrored_cell fl oc] with (map (mirrored_cell fl) [oc]). apply loop_mirrored; auto; try congruence.
  - apply mirl_t_max; auto; congruence.
  - exists (2 ^ 62). split; [exact Mo|]. unfold isize_max. lia.
Qed.

(** ** Whole scans *)
Lemma loop_lengths : forall d fuel e cur tm acc rc oe, length cur = d -> length (re_end_cell F32A e) = d -> Forall (fun c => length c = d) acc ->
  ray_loop F32A fuel e cur tm acc = Ret (rc, oe) -> Forall (fun c => length c = d) rc /\ (forall c, oe = Some c -> length c = d).
Proof.
  intros d fuel e. induction fuel as [|fuel IH]; intros cur tm acc rc oe Lc Le Ha R; [discriminate R|]. cbn [ray_loop] in R.
  destruct (isz _) as [x| |]; try discriminate R. cbn [obind] in R.
  assert (L1 : length (upd cur (select_dim F32A tm) x) = d) by now rewrite upd_length.
  destruct (cell_eqb _ _); [injection R as <- <-; split; [exact Ha|intros c [= <-]; exact Le]|].
  destruct (too_far _ _ _); [injection R as <- <-; split; [exact Ha|discriminate]|].
  apply IH in R; auto. apply Forall_app. auto.
Qed.
Lemma cast_lengths : forall d fuel (o e b : point) r m rc oe, length o = d -> length e = d -> length b = d ->
  cast_ray F32A fuel o e b r m = Ret (rc, oe) -> Forall (fun c => length c = d) rc /\ (forall c, oe = Some c -> length c = d).
Proof.
  intros d fuel o e b r m rc oe Lo Le Lb R. unfold cast_ray in R. destruct (oassert _) as [[]| |]; try discriminate R. cbn [obind] in R.
  assert (L : forall q : point, length q = d -> length (cell_from_point F32A q b r) = d) by (intros q Lq; unfold cell_from_point; now apply map2_len).
  destruct (cell_eqb _ _); [injection R as <- <-; split; [constructor|intros c [= <-]; auto]|].
  apply (loop_lengths d) in R; [exact R|now apply L|now apply L|constructor; [now apply L|constructor]].
Qed.
Lemma mirrored_inj : forall fl a b, length fl = length a -> length fl = length b -> mirrored_cell fl a = mirrored_cell fl b -> a = b.
Proof. intros fl a b L K E. rewrite <- (mirrored_twice fl a L), <- (mirrored_twice fl b K). now f_equal. Qed.
Lemma scan_mirrored : forall fl fuel d (o : point) cloud cloud' bs bs' r m, (d = 2 \/ d = 3)%nat -> length fl = d -> length o = d -> length (bmin bs) = d ->
  (forall p, In p (pc_points cloud) -> length p = d /\ Forall (fun x => is_nan x = false) (direction o p) /\ Forall moderate (cell_from_point F32A p (bmin bs) r)) ->
  Forall moderate (cell_from_point F32A o (bmin bs) r) -> Z.of_nat fuel < 2 ^ 62 ->
  pc_points cloud' = map (mirrored fl) (pc_points cloud) -> bmin bs' = mirrored fl (bmin bs) ->
  forall free occ, cast_rays fuel o cloud bs r m = Ret (free, occ) ->
  exists free' occ', cast_rays fuel (mirrored fl o) cloud' bs' r m = Ret (free', occ') /\
    Permutation (map (mirrored_cell fl) free) free' /\ Permutation (map (mirrored_cell fl) occ) occ'.
Proof.
  intros fl fuel d o cloud cloud' bs bs' r m Hd Lf Lo Lb HP Mo Hf EC EB free occ R.
  destruct (cast_rays_sets _ _ _ _ _ _ _ _ R) as (RT & O & F & NF & NO).
  cbv beta zeta in RT, O, F.
  assert (RM : forall p, In p (pc_points cloud) -> cast_ray F32A fuel (mirrored fl o) (mirrored fl p) (bmin bs') r m = obind (cast_ray F32A fuel o p (bmin bs) r m) (fun x => Ret (mirrored_ray fl x))).
  { intros p Hp. destruct (HP p Hp) as (Lp & N & Mp). rewrite EB. now apply (ray_mirrored fl fuel d). }
  destruct (cast_rays_returns fuel (mirrored fl o) cloud' bs' r m) as [[free' occ'] R'].
  { intros p Hp. rewrite EC in Hp. apply in_map_iff in Hp. destruct Hp as (q & <- & Hq).
    rewrite (RM q Hq). destruct (RT q Hq) as [x Ex]. rewrite Ex. cbn [obind]. eauto. }
  destruct (cast_rays_sets _ _ _ _ _ _ _ _ R') as (RT' & O' & F' & NF' & NO'). cbv beta zeta in RT', O', F'.
  exists free', occ'. split; [exact R'|].
  assert (LO : forall c, In c occ -> length fl = length c).
  { intros c Hc. apply O in Hc. destruct Hc as (p & rc & Hp & E). destruct (HP p Hp) as (Lp & _). rewrite Lf. symmetry. now apply (cast_lengths d fuel o p (bmin bs) r m rc (Some c)). }
  assert (LF : forall c p rc oe, In p (pc_points cloud) -> cast_ray F32A fuel o p (bmin bs) r m = Ret (rc, oe) -> In c rc -> length fl = length c).
  { intros c p rc oe Hp E I. destruct (HP p Hp) as (Lp & _). destruct (cast_lengths d fuel o p (bmin bs) r m rc oe Lo Lp Lb E) as [A _]. rewrite Forall_forall in A. rewrite Lf. symmetry. now apply A. }
  assert (OO : forall c, In c (map (mirrored_cell fl) occ) <-> In c occ').
  { intro c. rewrite O', in_map_iff. split.
    - intros (x & <- & Hx). apply O in Hx. destruct Hx as (p & rc & Hp & E). exists (mirrored fl p), (map (mirrored_cell fl) rc). split; [rewrite EC; now apply in_map|]. rewrite (RM p Hp), E. reflexivity.
    - intros (q & rc' & Hq & E). rewrite EC in Hq. apply in_map_iff in Hq. destruct Hq as (p & <- & Hp). rewrite (RM p Hp) in E. destruct (cast_ray F32A fuel o p (bmin bs) r m) as [[rc [x|]]| |] eqn:Q; try discriminate E.
      injection E as <- <-. exists x. split; [reflexivity|]. apply O. eauto. }
  assert (MN : forall l, NoDup l -> (forall c, In c l -> length fl = length c) -> NoDup (map (mirrored_cell fl) l)).
  { clear - fl. induction l as [|x l IH]; intros N L; [constructor|]. inversion N; subst. cbn [map]. constructor; [|apply IH; [assumption|intros c Hc; apply L; now right]].
    intro I. apply in_map_iff in I. destruct I as (y & E & Hy). apply mirrored_inj in E; [subst; contradiction|apply L; now right|apply L; now left]. }
  split; apply NoDup_Permutation; try assumption; try (apply MN; try assumption).
  - intros c Hc. apply F in Hc. destruct Hc as ((p & rc & oe & Hp & E & I) & _). now apply (LF c p rc oe).
  - intro c. rewrite F', in_map_iff. split.
    + intros (x & <- & Hx). apply F in Hx. destruct Hx as ((p & rc & oe & Hp & E & I) & NI). split.
      * exists (mirrored fl p), (map (mirrored_cell fl) rc), (option_map (mirrored_cell fl) oe). split; [rewrite EC; now apply in_map|]. split; [rewrite (RM p Hp), E; reflexivity|now apply in_map].
      * rewrite <- OO, in_map_iff. intros (y & Ey & Hy). apply NI. apply mirrored_inj in Ey; [now subst|now apply LO|now apply (LF x p rc oe)].
    + intros ((q & rc' & oe' & Hq & E & I) & NI). rewrite EC in Hq. apply in_map_iff in Hq. destruct Hq as (p & <- & Hp). rewrite (RM p Hp) in E. destruct (cast_ray F32A fuel o p (bmin bs) r m) as [[rc oe]| |] eqn:Q; try discriminate E.
      injection E as <- <-. apply in_map_iff in I. destruct I as (x & <- & Hx). exists x. split; [reflexivity|]. apply F. split; [exists p, rc, oe; auto|].
      intro Ho. apply NI. rewrite <- OO. now apply in_map.
Qed.
