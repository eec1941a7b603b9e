(** Approximate equality of boxes. *)
From Coq Require Import ZArith List Bool Reals Lra Lia.
From Flocq Require Import Core BinarySingleNaN Sterbenz Mult_error.
From Verif Require Import Base F32 FloatFacts RoundError Arith Geom Spec MathProofs ConverterProofs GeomProofs BoundsProofs.
Open Scope R_scope.

Lemma fabs_nan : forall x : f32, is_nan (fabs x) = is_nan x.
Proof. intros [| | |]; reflexivity. Qed.
Lemma ext_fabs : forall x : f32, is_nan x = false -> ext (fabs x) = Rabs (ext x).
Proof.
  intros [s|[|]| |s m e B] N; try discriminate N.
  - cbn. now rewrite Rabs_R0.
  - cbn -[bpow]. rewrite Rabs_Ropp, Rabs_pos_eq; [reflexivity|apply bpow_ge_0].
  - cbn -[bpow]. rewrite Rabs_pos_eq; [reflexivity|apply bpow_ge_0].
  - change (ext (B754_finite s m e B)) with (B2R (B754_finite s m e B) : R).
    rewrite <- B2R_Babs. reflexivity.
Qed.
Lemma fabs_inj : forall x y : f32, is_nan x = false -> is_nan y = false -> Rabs (ext x) = Rabs (ext y) ->
  fabs x = fabs y.
Proof.
  intros x y Nx Ny E. rewrite <- !ext_fabs in E by assumption.
  assert (K : forall z : f32, is_nan z = false -> is_finite z = true \/ exists s, z = B754_infinity s).
  { intros [|s| |] N; try discriminate N; [left|right; now exists s|left]; reflexivity. }
  destruct (K x Nx) as [Fx|[s ->]]; destruct (K y Ny) as [Fy|[t ->]].
  - destruct (fabs_fin x Fx) as [Gx _]. destruct (fabs_fin y Fy) as [Gy _].
    rewrite !ext_finite in E by assumption.
    apply B2R_Bsign_inj; try assumption. unfold fabs. rewrite !Bsign_Babs by assumption. reflexivity.
  - exfalso. destruct (fabs_fin x Fx) as [Gx _]. rewrite ext_finite in E by assumption. cbn -[bpow] in E.
    pose proof (B2R_lt_emax (fabs x)) as B. rewrite E, Rabs_pos_eq in B by apply bpow_ge_0. lra.
  - exfalso. destruct (fabs_fin y Fy) as [Gy _]. rewrite (ext_finite (fabs y)) in E by assumption. cbn -[bpow] in E.
    pose proof (B2R_lt_emax (fabs y)) as B. rewrite <- E, Rabs_pos_eq in B by apply bpow_ge_0. lra.
  - reflexivity.
Qed.

Lemma rnd_opp' : forall r, rnd (- r) = - rnd r.
Proof. intro r. apply round_NE_opp. Qed.
Lemma clamp_opp' : forall r, clamp (- r) = - clamp r.
Proof.
  intro r. unfold clamp. pose proof (bpow_gt_0 radix2 128). unfold Rmax, Rmin.
  repeat (destruct Rle_dec; try lra).
Qed.

Lemma fsub_abs_sym : forall x y : f32, fabs (fsub x y) = fabs (fsub y x).
Proof.
  intros x y.
  destruct (is_finite x) eqn:Fx; [destruct (is_finite y) eqn:Fy|].
  - destruct (fsub_ext x y Fx Fy) as [N1 E1]. destruct (fsub_ext y x Fy Fx) as [N2 E2].
    apply fabs_inj; try assumption. rewrite E1, E2.
    replace (B2R y - B2R x) with (- (B2R x - B2R y)) by ring. rewrite rnd_opp', clamp_opp'. now rewrite Rabs_Ropp.
  - destruct x as [| | |], y as [|[|]| |]; try discriminate Fx; try discriminate Fy; reflexivity.
  - destruct x as [|[|]| |], y as [|[|]| |]; try discriminate Fx; reflexivity.
Qed.

Lemma feqb_sym : forall x y : f32, feqb x y = feqb y x.
Proof.
  intros x y. apply eq_true_iff_eq. rewrite !feqb_iff. intuition congruence.
Qed.

Lemma relative_sym : forall e m x y, relative_eq_with e m x y = relative_eq_with e m y x.
Proof.
  intros e m x y. unfold relative_eq_with. rewrite (feqb_sym y x), (orb_comm (is_inf y)), (fsub_abs_sym y x).
  destruct (feqb x y); [reflexivity|]. destruct (is_inf x || is_inf y); [reflexivity|].
  destruct (is_nan x) eqn:Nx.
  { replace (fsub x y) with (B754_nan : f32) by (destruct x; try discriminate; destruct y; reflexivity). reflexivity. }
  destruct (is_nan y) eqn:Ny.
  { replace (fsub x y) with (B754_nan : f32) by (destruct y; try discriminate; destruct x; reflexivity). reflexivity. }
  replace (if fltb (fabs y) (fabs x) then fabs x else fabs y) with (if fltb (fabs x) (fabs y) then fabs y else fabs x);
    [reflexivity|].
  rewrite !fltb_ext by (rewrite fabs_nan; assumption). rewrite !ext_fabs by assumption.
  destruct (Rlt_bool_spec (Rabs (ext x)) (Rabs (ext y))); destruct (Rlt_bool_spec (Rabs (ext y)) (Rabs (ext x)));
    try reflexivity; try lra.
  apply fabs_inj; try assumption. lra.
Qed.
Lemma abs_diff_sym : forall e x y, abs_diff_eq e x y = abs_diff_eq e y x.
Proof. intros. unfold abs_diff_eq. now rewrite fsub_abs_sym. Qed.

Lemma all_pairs_sym : forall (f : f32 -> f32 -> bool), (forall x y, f x y = f y x) ->
  forall l l', forallb (fun xy => f (fst xy) (snd xy)) (combine l l') = forallb (fun xy => f (fst xy) (snd xy)) (combine l' l).
Proof.
  intros f H l. induction l as [|x l IH]; intros [|y l']; try reflexivity. cbn. now rewrite H, IH.
Qed.

Lemma bounds_relative_sym : forall e m a b, bounds_relative_eq e m a b = bounds_relative_eq e m b a.
Proof. intros. unfold bounds_relative_eq. f_equal; apply all_pairs_sym, relative_sym. Qed.
Lemma bounds_abs_diff_sym : forall e a b, bounds_abs_diff_eq e a b = bounds_abs_diff_eq e b a.
Proof. intros. unfold bounds_abs_diff_eq. f_equal; apply all_pairs_sym, abs_diff_sym. Qed.

Lemma all_pairs_same : forall (f : f32 -> f32 -> bool) (P : f32 -> Prop), (forall x, f x x = true <-> P x) ->
  forall l, forallb (fun xy => f (fst xy) (snd xy)) (combine l l) = true <-> Forall P l.
Proof.
  intros f P H l. induction l as [|x l IH]; cbn. { split; intros; [constructor|reflexivity]. }
  rewrite andb_true_iff, H, IH. split. { intros []. now constructor. } intro F. now inversion F.
Qed.

Lemma relative_refl : forall e m x, relative_eq_with e m x x = true <-> is_nan x = false.
Proof.
  intros e m x. unfold relative_eq_with. destruct (feqb x x) eqn:E.
  { apply feqb_iff in E. intuition. }
  split; intro H.
  - exfalso. destruct (is_nan x) eqn:N; [|].
    + destruct x; try discriminate N. discriminate H.
    + assert (feqb x x = true) by (apply feqb_iff; auto). congruence.
  - assert (feqb x x = true) by (apply feqb_iff; auto). congruence.
Qed.

Lemma bounds_relative_refl : forall e m b,
  bounds_relative_eq e m b b = true <-> Forall (fun x => is_nan x = false) (bmin b ++ bmax b).
Proof.
  intros. unfold bounds_relative_eq. rewrite andb_true_iff, Forall_app.
  rewrite !(all_pairs_same (relative_eq_with e m) _ (relative_refl e m)). reflexivity.
Qed.

Lemma abs_diff_refl : forall e, fle f0 e -> forall x, abs_diff_eq e x x = true <-> finite x.
Proof.
  intros e He x. unfold abs_diff_eq, finite. destruct (is_finite x) eqn:F.
  - split; [reflexivity|intros _]. destruct (fsub_ext x x F F) as [N E].
    apply fleb_iff. apply fleb_iff in He. destruct He as (_ & Ne & He).
    rewrite fabs_nan. split; [assumption|]. split; [assumption|].
    rewrite ext_fabs, E by assumption. rewrite Rminus_diag_eq, rnd_0 by reflexivity.
    rewrite clamp_lt_id, Rabs_R0. exact He. rewrite Rabs_R0. apply bpow_gt_0.
  - split; intro H; [|discriminate]. destruct x as [|[|]| |]; try discriminate F; discriminate H.
Qed.

Lemma bounds_abs_diff_refl : forall e b, fle f0 e ->
  (bounds_abs_diff_eq e b b = true <-> Forall finite (bmin b ++ bmax b)).
Proof.
  intros e b He. unfold bounds_abs_diff_eq. rewrite andb_true_iff, Forall_app.
  rewrite !(all_pairs_same (abs_diff_eq e) _ (abs_diff_refl e He)). reflexivity.
Qed.

Lemma eq_relative : forall e m a b, bounds_eqb a b = true -> bounds_relative_eq e m a b = true.
Proof.
  intros e m a b H. unfold bounds_eqb, point_eqb in H. unfold bounds_relative_eq.
  assert (K : forall l, forallb (fun xy : f32 * f32 => feqb (fst xy) (snd xy)) l = true ->
    forallb (fun xy => relative_eq_with e m (fst xy) (snd xy)) l = true).
  { intros l. rewrite !forallb_forall. intros K x Hx. unfold relative_eq_with. now rewrite (K x Hx). }
  apply andb_true_iff in H. destruct H as [H1 H2]. apply andb_true_iff in H1. apply andb_true_iff in H2.
  apply andb_true_iff. split; apply K; tauto.
Qed.

(** the default tolerance *)
Lemma relative_complete : forall x y : f32, is_finite x = true -> is_finite y = true ->
  Rabs (B2R x - B2R y) <= bp (-23) * Rmax 1 (Rmax (Rabs (B2R x)) (Rabs (B2R y))) -> relative_eq x y = true.
Proof.
  intros x y Fx Fy H. unfold relative_eq, relative_eq_with. destruct (feqb x y); [reflexivity|].
  replace (is_inf x) with false by (destruct x; try discriminate; reflexivity).
  replace (is_inf y) with false by (destruct y; try discriminate; reflexivity). cbn [orb].
  destruct (fsub_ext x y Fx Fy) as [Nd Ed]. set (d := fsub x y) in *. set (D := B2R x - B2R y) in *.
  assert (EB : bp (-23) = / 8388608) by reflexivity. rewrite EB in H.
  (* the rounded difference is below the rounding of anything above the exact one *)
  assert (K : forall (z : f32) Z, is_finite z = true -> B2R z = rnd Z -> Rabs D <= Z -> fleb (fabs d) z = true).
  { intros z Z Fz Ez HZ. apply fleb_iff. rewrite fabs_nan. split; [assumption|].
    split; [now apply is_finite_not_nan|]. rewrite ext_fabs, Ed by assumption.
    assert (A : Rabs (rnd D) <= B2R z).
    { rewrite Ez. apply Rabs_le_inv in HZ. apply Rabs_le. split; [rewrite <- rnd_opp'|]; apply rnd_le; lra. }
    rewrite (ext_finite z) by assumption. rewrite clamp_lt_id; [assumption|].
    apply Rle_lt_trans with (1 := A). pose proof (B2R_lt_emax z) as B. apply Rabs_lt_inv in B. lra. }
  destruct (fleb (fabs d) feps) eqn:E1; [reflexivity|].
  destruct (fabs_fin x Fx) as [Fax Eax]. destruct (fabs_fin y Fy) as [Fay Eay].
  set (l := if fltb (fabs x) (fabs y) then fabs y else fabs x).
  assert (Fl : is_finite l = true) by (unfold l; destruct fltb; assumption).
  assert (El : B2R l = Rmax (Rabs (B2R x)) (Rabs (B2R y))).
  { unfold l. rewrite fltb_ext by (now apply is_finite_not_nan). rewrite !ext_finite, Eax, Eay by assumption.
    destruct (Rlt_bool_spec (Rabs (B2R x)) (Rabs (B2R y))).
    - rewrite Eay, Rmax_right; lra.
    - rewrite Eax, Rmax_left; lra. }
  destruct (fmul_fin l feps Fl feps_fin) as [Fm Em].
  { rewrite feps_real. apply Rle_lt_trans with (B2R l); [|].
    - assert (0 <= B2R l) by (rewrite El; apply Rle_trans with (2 := Rmax_l _ _); apply Rabs_pos).
      rewrite Rabs_pos_eq. rewrite <- (rnd_float l) at 2. apply rnd_le; lra.
      rewrite <- rnd_0. apply rnd_le. lra.
    - pose proof (B2R_lt_emax l) as B. apply Rabs_lt_inv in B. lra. }
  apply (K _ _ Fm Em). rewrite feps_real, El.
  destruct (Rle_or_lt (Rmax (Rabs (B2R x)) (Rabs (B2R y))) 1) as [C|C].
  - exfalso. rewrite Rmax_left in H by assumption.
    rewrite (K feps (/ 8388608) feps_fin) in E1; [discriminate E1| |lra].
    rewrite <- feps_real, rnd_float. reflexivity.
  - rewrite Rmax_right in H by lra. lra.
Qed.

(** The comparison is exact when a coordinate is at least one: the difference is a float then. *)
Lemma relative_sound : forall x y : f32, is_finite x = true -> is_finite y = true -> relative_eq x y = true ->
  1 <= Rmax (Rabs (B2R x)) (Rabs (B2R y)) -> Rabs (B2R x - B2R y) <= bp (-23) * Rmax (Rabs (B2R x)) (Rabs (B2R y)).
Proof.
  intros x y Fx Fy H H1. pose proof (relative_eq_close x y Fx Fy H) as C. rewrite (Rmax_comm (Rabs (B2R y))), (Rmax_right 1) in C by assumption.
  set (M := Rmax (Rabs (B2R x)) (Rabs (B2R y))) in *.
  assert (EB : bp (-23) = / 8388608) by reflexivity. assert (EB' : bp (-22) = / 4194304) by reflexivity. rewrite EB' in C. rewrite EB.
  assert (ED : rnd (B2R x - B2R y) = B2R x - B2R y).
  { apply round_generic; auto with typeclass_instances.
    pose proof (generic_format_B2R 24 128 x) as Gx. pose proof (generic_format_B2R 24 128 y) as Gy.
    assert (S : forall a b : R, generic_format radix2 fexp32 a -> generic_format radix2 fexp32 b -> 0 < b -> Rabs (a - b) <= b / 2 -> generic_format radix2 fexp32 (a - b)).
    { intros a b Ga Gb P K. apply Rabs_le_inv in K. apply sterbenz; auto with typeclass_instances. lra. }
    apply Rabs_le_inv in C.
    assert (Q : (Rabs (B2R y) <= M /\ M = Rabs (B2R x)) \/ (Rabs (B2R x) <= M /\ M = Rabs (B2R y))).
    { unfold M, Rmax. destruct (Rle_dec _ _); [right|left]; lra. }
    destruct Q as [[Q1 Q2]|[Q1 Q2]]; revert Q1 Q2; unfold Rabs; destruct (Rcase_abs (B2R x)), (Rcase_abs (B2R y)); intros Q1 Q2; try lra.
    all: try (apply S; [assumption|assumption|lra|]; apply Rabs_le; lra).
    all: replace (B2R x - B2R y) with (- (- B2R x - - B2R y)) by ring; apply generic_format_opp; apply S; [now apply generic_format_opp|now apply generic_format_opp|lra|]; apply Rabs_le; lra. }
  unfold relative_eq, relative_eq_with in H. destruct (feqb x y) eqn:E.
  { apply feqb_iff in E. destruct E as (_ & _ & E). rewrite !ext_finite in E by assumption.
    rewrite E, Rminus_diag_eq, Rabs_R0 by reflexivity. lra. }
  replace (is_inf x) with false in H by (destruct x; try discriminate; reflexivity).
  replace (is_inf y) with false in H by (destruct y; try discriminate; reflexivity).
  cbn [orb] in H.
  destruct (fsub_ext x y Fx Fy) as [Nd Ed]. set (d := fsub x y) in *. rewrite ED in Ed.
  assert (FD : forall z : f32, is_finite z = true -> fleb (fabs d) z = true -> Rabs (B2R x - B2R y) <= B2R z).
  { intros z Fz Hz. apply fleb_iff in Hz. destruct Hz as (_ & _ & Hz). rewrite (ext_finite z), ext_fabs, Ed in Hz by assumption.
    pose proof (B2R_lt_emax z) as Bz. apply Rabs_lt_inv in Bz. rewrite clamp_lt_id in Hz; [assumption|]. apply clamp_abs_lt. lra. }
  destruct (fleb (fabs d) feps) eqn:E1.
  { eapply Rle_trans; [apply (FD feps feps_fin E1)|]. rewrite feps_real. lra. }
  destruct (fabs_fin x Fx) as [Fax Eax]. destruct (fabs_fin y Fy) as [Fay Eay].
  set (l := if fltb (fabs x) (fabs y) then fabs y else fabs x) in H.
  assert (Fl : is_finite l = true) by (unfold l; destruct fltb; assumption).
  assert (El : B2R l = M).
  { unfold l. rewrite fltb_ext by (now apply is_finite_not_nan). rewrite !ext_finite, Eax, Eay by assumption. unfold M.
    destruct (Rlt_bool_spec (Rabs (B2R x)) (Rabs (B2R y))).
    - rewrite Eay, Rmax_right; lra.
    - rewrite Eax, Rmax_left; lra. }
  assert (Ex : rnd (B2R l * B2R feps) = B2R l * B2R feps).
  { apply round_generic; auto with typeclass_instances. rewrite feps_real, <- EB. apply (mult_bpow_exact_FLT radix2 (-149) 24); [apply generic_format_B2R|].
    assert (1 <= mag radix2 (B2R l))%Z; [|lia]. apply mag_ge_bpow. rewrite El, Rabs_pos_eq by lra. exact H1. }
  destruct (fmul_fin l feps Fl feps_fin) as [Fm Em].
  { rewrite Ex, feps_real. pose proof (B2R_lt_emax l) as B. rewrite El in *. rewrite Rabs_mult, (Rabs_pos_eq (/ 8388608)), (Rabs_pos_eq M) in * by lra. lra. }
  rewrite Ex, feps_real, El in Em. pose proof (FD _ Fm H) as K. rewrite Em in K. lra.
Qed.

Lemma relative_small : forall x y : f32, is_finite x = true -> is_finite y = true -> relative_eq x y = true ->
  Rmax (Rabs (B2R x)) (Rabs (B2R y)) <= 1 -> Rabs (B2R x - B2R y) <= bp (-23) + bp (-46).
Proof.
  intros x y Fx Fy H M1.
  assert (EB : bp (-23) = / 8388608) by reflexivity. assert (EB' : bp (-46) = / 8388608 * / 8388608) by (rewrite <- EB, <- bpow_plus; reflexivity).
  assert (Ax : Rabs (B2R x) <= 1) by (eapply Rle_trans; [apply Rmax_l|exact M1]). assert (Ay : Rabs (B2R y) <= 1) by (eapply Rle_trans; [apply Rmax_r|exact M1]).
  set (D := B2R x - B2R y). pose proof (rnd_err D) as RE. unfold u32 in RE.
  assert (B150 : bp (-150) <= / 8388608 * / 8388608 * / 8388608) by (rewrite <- EB, <- !bpow_plus; apply bpow_le; lia).
  enough (A : Rabs (rnd D) <= / 8388608).
  { rewrite EB', EB. assert (Rabs D <= Rabs (rnd D) + Rabs (rnd D - D)).
    { replace D with (rnd D - (rnd D - D)) at 1 by ring. eapply Rle_trans; [apply Rabs_triang|]. rewrite Rabs_Ropp. lra. }
    lra. }
  unfold relative_eq, relative_eq_with in H. destruct (feqb x y) eqn:E.
  { apply feqb_iff in E. destruct E as (_ & _ & E). rewrite !ext_finite in E by assumption.
    unfold D. rewrite E, Rminus_diag_eq, rnd_0, Rabs_R0 by reflexivity. lra. }
  replace (is_inf x) with false in H by (destruct x; try discriminate; reflexivity).
  replace (is_inf y) with false in H by (destruct y; try discriminate; reflexivity).
  cbn [orb] in H.
  destruct (fsub_ext x y Fx Fy) as [Nd Ed]. set (d := fsub x y) in *. fold D in Ed.
  assert (FD : forall z : f32, is_finite z = true -> fleb (fabs d) z = true -> Rabs (rnd D) <= B2R z).
  { intros z Fz Hz. apply fleb_iff in Hz. destruct Hz as (_ & _ & Hz). rewrite (ext_finite z), ext_fabs, Ed in Hz by assumption.
    pose proof (B2R_lt_emax z) as Bz. apply Rabs_lt_inv in Bz. rewrite clamp_lt_id in Hz; [assumption|]. apply clamp_abs_lt. lra. }
  destruct (fleb (fabs d) feps) eqn:E1; [rewrite <- feps_real; now apply FD; [apply feps_fin|]|].
  destruct (fabs_fin x Fx) as [Fax Eax]. destruct (fabs_fin y Fy) as [Fay Eay].
  set (l := if fltb (fabs x) (fabs y) then fabs y else fabs x) in H.
  assert (Fl : is_finite l = true) by (unfold l; destruct fltb; assumption).
  assert (El : 0 <= B2R l <= 1).
  { unfold l; destruct fltb; rewrite ?Eax, ?Eay; split; try assumption; apply Rabs_pos. }
  assert (B : Rabs (rnd (B2R l * B2R feps)) <= / 8388608).
  { rewrite feps_real. replace (/ 8388608) with (bp (-23)) at 2 by reflexivity. apply rnd_abs_le_bp; [lia|]. rewrite EB, Rabs_pos_eq by lra. lra. }
  destruct (fmul_fin l feps Fl feps_fin) as [Fm Em].
  { eapply Rle_lt_trans; [exact B|]. rewrite <- EB. apply bpow_lt. lia. }
  pose proof (FD _ Fm H) as K. rewrite Em in K. apply Rabs_le_inv in B. lra.
Qed.
Lemma relative_tight : forall x y : f32, is_finite x = true -> is_finite y = true -> relative_eq x y = true -> within_rel (bp (-23) + bp (-46)) x y.
Proof.
  intros x y Fx Fy H. unfold within_rel, real. pose proof (bpow_gt_0 radix2 (-46)) as B1. pose proof (bpow_gt_0 radix2 (-23)) as B2.
  destruct (Rle_or_lt 1 (Rmax (Rabs (B2R x)) (Rabs (B2R y)))) as [K|K].
  - rewrite Rmax_right by assumption. eapply Rle_trans; [apply relative_sound; assumption|]. apply Rmult_le_compat_r; lra.
  - rewrite Rmax_left by lra. rewrite Rmult_1_r. apply relative_small; try assumption. lra.
Qed.

Lemma bounds_default_tolerance : forall a b, length (bmin a) = length (bmin b) -> length (bmax a) = length (bmax b) ->
  Forall finite (bmin a ++ bmax a) -> Forall finite (bmin b ++ bmax b) ->
  (Forall2 (within_rel (bp (-23))) (bmin a) (bmin b) /\ Forall2 (within_rel (bp (-23))) (bmax a) (bmax b) ->
   bounds_relative_eq feps feps a b = true) /\
  (bounds_relative_eq feps feps a b = true ->
   Forall2 (within_rel (bp (-23) + bp (-46))) (bmin a) (bmin b) /\ Forall2 (within_rel (bp (-23) + bp (-46))) (bmax a) (bmax b)).
Proof.
  intros a b L1 L2 Fa Fb. apply Forall_app in Fa. apply Forall_app in Fb.
  destruct Fa as [Fa1 Fa2], Fb as [Fb1 Fb2].
  assert (K : forall l l', Forall finite l -> Forall finite l' -> length l = length l' ->
    (Forall2 (within_rel (bp (-23))) l l' -> forallb (fun xy => relative_eq_with feps feps (fst xy) (snd xy)) (combine l l') = true) /\
    (forallb (fun xy => relative_eq_with feps feps (fst xy) (snd xy)) (combine l l') = true -> Forall2 (within_rel (bp (-23) + bp (-46))) l l')).
  { clear. induction l as [|x l IH]; intros [|y l'] F F' L; try discriminate L.
    { split; intros; [reflexivity|constructor]. }
    inversion_clear F. inversion_clear F'. injection L as L. destruct (IH l') as [I1 I2]; try assumption.
    cbn [combine forallb fst snd]. split; intro H'.
    - inversion_clear H'. rewrite I1 by assumption.
      change (relative_eq_with feps feps x y) with (relative_eq x y). rewrite relative_complete; try assumption. reflexivity.
    - apply andb_true_iff in H'. destruct H' as [H1' H2']. constructor; [|now apply I2].
      now apply relative_tight. }
  destruct (K _ _ Fa1 Fb1 L1) as [A1 A2]. destruct (K _ _ Fa2 Fb2 L2) as [B1 B2].
  unfold bounds_relative_eq. split; intro H.
  - destruct H as [H1 H2]. rewrite A1, B1 by assumption. reflexivity.
  - apply andb_true_iff in H. destruct H as [H1 H2]. auto.
Qed.

Lemma bounds_tolerance_exact : forall a b, Forall finite (bmin a ++ bmax a) -> Forall finite (bmin b ++ bmax b) ->
  Forall2 (fun x y => (1 <= Rmax (Rabs (real x)) (Rabs (real y)))%R) (bmin a ++ bmax a) (bmin b ++ bmax b) -> length (bmin a) = length (bmin b) ->
  (bounds_relative_eq feps feps a b = true <-> Forall2 (within_rel (bp (-23))) (bmin a ++ bmax a) (bmin b ++ bmax b)).
Proof.
  intros a b Fa Fb H L. unfold bounds_relative_eq. rewrite <- forallb_app.
  replace (combine (bmin a) (bmin b) ++ combine (bmax a) (bmax b)) with (combine (bmin a ++ bmax a) (bmin b ++ bmax b)).
  2: { generalize (bmin b), L. clear. induction (bmin a) as [|x l IH]; intros [|y m] L; try discriminate L; [reflexivity|]. cbn. f_equal. apply IH. now injection L. }
  clear L. induction H as [|x y l m H1 H IH]; [split; intros; [constructor|reflexivity]|]. inversion_clear Fa. inversion_clear Fb. specialize (IH H2 H4).
  cbn [combine forallb fst snd]. change (relative_eq_with feps feps x y) with (relative_eq x y). rewrite andb_true_iff, IH. unfold real in *. split.
  - intros [K1 K2]. constructor; [|assumption]. unfold within_rel, real. rewrite (Rmax_right 1) by assumption. now apply relative_sound.
  - intro K. inversion_clear K. split; [|assumption]. now apply relative_complete.
Qed.

Lemma relative_not_transitive : exists a b c, Forall finite (bmin a ++ bmax a) /\ length (bmin a) = 3%nat /\
  bounds_relative_eq feps feps a b = true /\ bounds_relative_eq feps feps b c = true /\
  bounds_relative_eq feps feps a c = false.
Proof.
  exists (mkBounds [f0; f0; f0] [f0; f0; f0]), (mkBounds [f0; f0; f0] [feps; f0; f0]),
    (mkBounds [f0; f0; f0] [f32_lit 2 8388608; f0; f0]).
  split; [repeat constructor|]. repeat split; vm_compute; reflexivity.
Qed.

Lemma relative_special : forall e m x y, relative_eq_with e m x y = true -> is_nan x = false /\ is_nan y = false /\ (is_finite x = false \/ is_finite y = false -> x = y).
Proof.
  intros e m x y H. unfold relative_eq_with in H.
  destruct x as [s|s| |s mx ex B]; destruct y as [s'|s'| |s' my ey B']; try discriminate H; (split; [reflexivity|]); (split; [reflexivity|]); cbn [is_finite]; intros [K|K]; try discriminate K; try (destruct s; discriminate H); try (destruct s'; discriminate H);
    destruct s, s'; try reflexivity; discriminate H.
Qed.
Lemma bounds_relative_special : forall e m a b, length (bmin a) = length (bmin b) -> length (bmax a) = length (bmax b) -> bounds_relative_eq e m a b = true ->
  Forall2 (fun x y => is_nan x = false /\ is_nan y = false /\ (is_finite x = false \/ is_finite y = false -> x = y)) (bmin a ++ bmax a) (bmin b ++ bmax b).
Proof.
  intros e m a b L1 L2 H. unfold bounds_relative_eq in H. apply andb_prop in H. destruct H as [H1 H2].
  assert (G : forall l l', length l = length l' -> forallb (fun xy => relative_eq_with e m (fst xy) (snd xy)) (combine l l') = true ->
    Forall2 (fun x y => is_nan x = false /\ is_nan y = false /\ (is_finite x = false \/ is_finite y = false -> x = y)) l l').
  { induction l as [|x l IH]; intros [|y l'] L H; try discriminate L; constructor; cbn [combine forallb fst snd] in H; apply andb_prop in H; destruct H as [A B].
    - now apply (relative_special e m).
    - apply IH; [now injection L|exact B]. }
  apply Forall2_app; now apply G.
Qed.
