(** Proofs about Bounds: discretized, enclosing, overlapping, cell conversion. *)
From Coq Require Import ZArith List Bool Reals Lra Lia Psatz.
From Flocq Require Import Core BinarySingleNaN.
From Verif Require Import Base F32 FloatFacts RoundError Arith Geom Spec MathProofs ConverterProofs GeomProofs.
Open Scope R_scope.

(** ** C12: Bounds::discretized *)
Lemma rnd_float : forall x : f32, rnd (B2R x) = B2R x.
Proof. intro x. apply round_generic; auto with typeclass_instances. apply generic_format_B2R. Qed.

Lemma clamp_ext : forall x : f32, clamp (ext x) = ext x.
Proof. intro x. apply clamp_id. apply ext_bounds. Qed.

Lemma add_pos_ext : forall v r : f32, is_nan v = false -> is_finite r = true -> 0 < B2R r ->
  fle v (fadd v r).
Proof.
  intros v r N Fr P. apply fleb_iff. destruct (is_finite v) eqn:F.
  - destruct (fadd_ext v r F Fr) as [N' E]. repeat split; try assumption. rewrite E.
    rewrite <- clamp_ext at 1. apply clamp_le. rewrite ext_finite by assumption.
    rewrite <- (rnd_float v) at 1. apply rnd_le. lra.
  - destruct v as [|s| |]; try discriminate.
    replace (fadd (B754_infinity s) r) with (B754_infinity s : f32). repeat split; lra.
    destruct r; try discriminate; reflexivity.
Qed.
Lemma sub_pos_ext : forall v r : f32, is_nan v = false -> is_finite r = true -> 0 < B2R r ->
  fle (fsub v r) v.
Proof.
  intros v r N Fr P. apply fleb_iff. destruct (is_finite v) eqn:F.
  - destruct (fsub_ext v r F Fr) as [N' E]. repeat split; try assumption. rewrite E.
    rewrite <- clamp_ext at 1. rewrite clamp_ext. rewrite <- (clamp_ext v). apply clamp_le. rewrite ext_finite by assumption.
    rewrite <- (rnd_float v) at 2. apply rnd_le. lra.
  - destruct v as [|s| |]; try discriminate.
    rewrite fsub_nonnan_inf_l by assumption. repeat split; lra.
Qed.

(** A non-integral quotient: neighbouring integers bound the real quotient. *)
Lemma quotient_between : forall v r : f32, is_finite v = true -> is_finite r = true -> 0 < B2R r ->
  let c := fdiv v r in
  relative_eq c (fround c) = false ->
  is_finite c = true /\
  IZR (Zfloor (B2R c)) * B2R r <= B2R v <= IZR (Zceil (B2R c)) * B2R r /\
  Zceil (B2R c) = (Zfloor (B2R c) + 1)%Z.
Proof.
  intros v r Fv Fr P c H.
  destruct (fdiv_ext v r Fv Fr ltac:(lra)) as [Nc Ec]. fold c in Nc, Ec.
  assert (Fc : is_finite c = true).
  { destruct (is_finite c) eqn:F; [reflexivity|]. exfalso.
    destruct c as [|[|]| |]; try discriminate. }
  rewrite ext_finite in Ec by assumption.
  assert (Ec' : B2R c = rnd (B2R v / B2R r)).
  { pose proof (B2R_lt_emax c) as B. rewrite Ec in B. apply clamp_abs_lt in B.
    rewrite clamp_lt_id in Ec; assumption. }
  destruct (fround_fin c Fc) as [Fr' Er'].
  assert (NI : B2R c <> IZR (ZnearestA (B2R c))).
  { intro E. unfold relative_eq, relative_eq_with in H.
    rewrite feqb_ext in H by (apply is_finite_not_nan; assumption).
    rewrite !ext_finite, Er' in H by assumption. rewrite Req_bool_true in H by assumption. discriminate. }
  assert (NF : B2R c <> IZR (Zfloor (B2R c))).
  { intro E. apply NI. rewrite E at 2. rewrite Znearest_imp with (n := Zfloor (B2R c)). exact E.
    rewrite Rminus_diag_eq by reflexivity. rewrite Rabs_R0. lra. }
  assert (CF : Zceil (B2R c) = (Zfloor (B2R c) + 1)%Z) by (apply Zceil_floor_neq; congruence).
  destruct (ffloor_fin c Fc) as [F1 E1]. destruct (fceil_fin c Fc) as [F2 E2].
  pose proof (Zfloor_lb (B2R c)) as L1. pose proof (Zceil_ub (B2R c)) as L2.
  assert (X : B2R v = B2R v / B2R r * B2R r) by (field; lra).
  split; [assumption|]. split; [|assumption]. split; rewrite X; apply Rmult_le_compat_r; try lra.
  - destruct (Rle_or_lt (IZR (Zfloor (B2R c))) (B2R v / B2R r)) as [|G]; [assumption|exfalso].
    apply NF. apply Rle_antisym; [|assumption].
    rewrite Ec' at 1. rewrite <- E1. rewrite <- (rnd_float (ffloor c)). apply rnd_le. rewrite E1. lra.
  - destruct (Rle_or_lt (B2R v / B2R r) (IZR (Zceil (B2R c)))) as [|G]; [assumption|exfalso].
    assert (IZR (Zceil (B2R c)) <= B2R c).
    { rewrite Ec' at 2. rewrite <- E2 at 1. rewrite <- (rnd_float (fceil c)). apply rnd_le. rewrite E2. lra. }
    rewrite CF, plus_IZR in H0. pose proof (Zfloor_ub (B2R c)). lra.
Qed.

Lemma rel_eq_inf : forall (s : bool), relative_eq (B754_infinity s) (fround (B754_infinity s)) = true.
Proof. intros [|]; reflexivity. Qed.

Lemma fdisc_min1_spec : forall r v : f32, is_finite r = true -> 0 < B2R r -> is_nan v = false ->
  fle (fsub v r) (fdisc_min1 r v) /\ fle (fdisc_min1 r v) v.
Proof.
  intros r v Fr P N. unfold fdisc_min1.
  destruct (relative_eq (fdiv v r) (fround (fdiv v r))) eqn:RE.
  { split; [now apply sub_pos_ext | now apply fle_refl]. }
  destruct (is_finite v) eqn:Fv.
  2: { destruct v as [|s| |]; try discriminate. rewrite fdiv_inf_l, rel_eq_inf in RE by assumption. discriminate. }
  destruct (quotient_between v r Fv Fr P RE) as (Fc & [B1 B2] & CF).
  set (c := fdiv v r) in *. destruct (ffloor_fin c Fc) as [F1 E1].
  destruct (fmul_ext (ffloor c) r F1 Fr) as [Nm Em]. rewrite E1 in Em.
  destruct (fsub_ext v r Fv Fr) as [Ns Es].
  split; apply fleb_iff; repeat split; try assumption.
  - rewrite Em, Es. apply clamp_le, rnd_le. rewrite CF, plus_IZR in B2. lra.
  - rewrite Em. rewrite <- (clamp_ext v), ext_finite by assumption. apply clamp_le.
    rewrite <- (rnd_float v). now apply rnd_le.
Qed.

Lemma fdisc_max1_spec : forall (r v : f32) expand, is_finite r = true -> 0 < B2R r -> is_nan v = false ->
  fle v (fdisc_max1 r expand v) /\ fle (fdisc_max1 r expand v) (fadd v r).
Proof.
  intros r v expand Fr P N. unfold fdisc_max1.
  assert (Nadd : is_nan (fadd v r) = false) by (eapply fle_nan_r; now apply add_pos_ext).
  destruct (relative_eq (fdiv v r) (fround (fdiv v r))) eqn:RE.
  { destruct expand; split; try (now apply add_pos_ext); now apply fle_refl. }
  destruct (is_finite v) eqn:Fv.
  2: { destruct v as [|s| |]; try discriminate. rewrite fdiv_inf_l, rel_eq_inf in RE by assumption. discriminate. }
  destruct (quotient_between v r Fv Fr P RE) as (Fc & [B1 B2] & CF).
  set (c := fdiv v r) in *. destruct (fceil_fin c Fc) as [F1 E1].
  destruct (fmul_ext (fceil c) r F1 Fr) as [Nm Em]. rewrite E1 in Em.
  destruct (fadd_ext v r Fv Fr) as [Ns Es].
  split; apply fleb_iff; repeat split; try assumption.
  - rewrite Em. rewrite <- (clamp_ext v), ext_finite by assumption. apply clamp_le.
    rewrite <- (rnd_float v). now apply rnd_le.
  - rewrite Em, Es. apply clamp_le, rnd_le. rewrite CF, plus_IZR. lra.
Qed.

Lemma Forall2_impl2 : forall {A B C D} (P : A -> B -> Prop) (Q : C -> D -> Prop) f g l m,
  (forall x y, P x y -> Q (f x) (g y)) -> Forall2 P l m -> Forall2 Q (map f l) (map g m).
Proof. intros A B C D P Q f g l m H F. induction F; constructor; auto. Qed.

Lemma bounds_discretized_spec : forall d b r expand, finite r -> 0 < real r -> ordered d b ->
  exists b', bounds_discretized b r expand = Ret b' /\ ordered d b' /\ sub_box b b' /\
    Forall2 (fun v v' => fle (fsub v r) v') (bmin b) (bmin b') /\
    Forall2 (fun v v' => fle v' (fadd v r)) (bmax b) (bmax b').
Proof.
  intros d b r expand Fr P (L1 & L2 & O).
  set (mn := map (fdisc_min1 r) (bmin b)). set (mx := map (fdisc_max1 r expand) (bmax b)).
  assert (Nmn : Forall (fun x => is_nan x = false) (bmin b)).
  { clear -O. induction O; constructor; auto. eapply fle_nan_l; eauto. }
  assert (Nmx : Forall (fun x => is_nan x = false) (bmax b)).
  { clear -O. induction O; constructor; auto. eapply fle_nan_r; eauto. }
  assert (O' : Forall2 fle mn mx).
  { unfold mn, mx. eapply Forall2_impl2; [|exact O]. intros x y H.
    destruct (fdisc_min1_spec r x Fr P (fle_nan_l _ _ H)) as [_ A].
    destruct (fdisc_max1_spec r y expand Fr P (fle_nan_r _ _ H)) as [B _].
    eapply fle_trans; [exact A|]. eapply fle_trans; [exact H|exact B]. }
  exists (mkBounds mn mx). unfold bounds_discretized. fold mn mx.
  assert (Lm : length mn = length mx) by (unfold mn, mx; rewrite !map_length; lia).
  rewrite Forall_forall in Nmn, Nmx.
  split; [|split; [|split; [|split]]].
  - apply bounds_new_iff; auto.
  - repeat split; cbn; unfold mn, mx; rewrite ?map_length; auto.
  - split; cbn.
    + unfold mn. clear -Nmn Fr P. induction (bmin b) as [|x l IH]; constructor.
      apply fdisc_min1_spec; auto. apply Nmn; now left. apply IH. intros; apply Nmn; now right.
    + apply Forall2_map_r. intros x Hx. apply fdisc_max1_spec; auto.
  - cbn. apply Forall2_map_r. intros x Hx. apply fdisc_min1_spec; auto.
  - cbn. apply Forall2_map_r. intros x Hx. apply fdisc_max1_spec; auto.
Qed.

(** ** C13: Bounds::enclosing *)
Lemma point_eqb_repeat : forall (p : point), point_eqb p (origin (length p)) = true <->
  Forall (fun x => feqb x f0 = true) p.
Proof.
  intro p. unfold point_eqb, origin. rewrite repeat_length, Nat.eqb_refl. cbn [andb].
  induction p as [|x p IH]; cbn; [split; auto|].
  rewrite andb_true_iff, IH. split; [intros []; now constructor|]. intro H. inversion H; auto.
Qed.

Lemma zero_box_iff : forall b d, length (bmin b) = d -> length (bmax b) = d ->
  (bounds_eqb b (bounds_empty d) = true <-> is_zero_box b).
Proof.
  intros b d L1 L2. unfold bounds_eqb, bounds_empty, is_zero_box. cbn.
  rewrite andb_true_iff. rewrite <- L1 at 1. rewrite point_eqb_repeat. rewrite <- L2 at 1.
  rewrite point_eqb_repeat. tauto.
Qed.

Lemma enclosing_empty : forall d a b, length (bmin a) = d -> length (bmax a) = d -> is_zero_box a ->
  bounds_enclosing a b = b.
Proof.
  intros d a b L1 L2 Z. unfold bounds_enclosing.
  rewrite (proj2 (zero_box_iff a (length (bmin a)) eq_refl (eq_trans L2 (eq_sym L1))) Z). reflexivity.
Qed.

Lemma min_if : forall v o : f32, is_nan v = false -> is_nan o = false ->
  let m := if fltb v o then v else o in
  fle m v /\ fle m o /\ (forall x, fle x v -> fle x o -> fle x m) /\ is_nan m = false.
Proof.
  intros v o Nv No m. unfold m. destruct (fltb v o) eqn:E.
  - apply fltb_iff in E. repeat split; try assumption; try (now apply fle_refl); auto.
    apply fleb_iff. repeat split; try tauto. lra.
  - apply fltb_false_iff in E; try assumption. repeat split; try assumption; try (now apply fle_refl); auto.
    apply fleb_iff. repeat split; try tauto.
Qed.
Lemma max_if : forall v o : f32, is_nan v = false -> is_nan o = false ->
  let m := if fltb o v then v else o in
  fle v m /\ fle o m /\ (forall x, fle v x -> fle o x -> fle m x) /\ is_nan m = false.
Proof.
  intros v o Nv No m. unfold m. destruct (fltb o v) eqn:E.
  - apply fltb_iff in E. repeat split; try assumption; try (now apply fle_refl); auto.
    apply fleb_iff. repeat split; try tauto. lra.
  - apply fltb_false_iff in E; try assumption. repeat split; try assumption; try (now apply fle_refl); auto.
    apply fleb_iff. repeat split; try tauto.
Qed.

Lemma map2_Forall2_min : forall a b : point, length a = length b -> no_nan a -> no_nan b ->
  let m := map2 (fun v o => if fltb v o then v else o) a b in
  length m = length a /\ Forall2 fle m a /\ Forall2 fle m b /\
  (forall x, Forall2 fle x a -> Forall2 fle x b -> Forall2 fle x m) /\ no_nan m.
Proof.
  unfold no_nan. induction a as [|v a IH]; intros [|o b] L Na Nb; try discriminate; cbn.
  - repeat split; auto.
  - inversion Na; inversion Nb; subst. injection L as L.
    destruct (IH b L H2 H6) as (I1 & I2 & I3 & I4 & I5).
    destruct (min_if v o H1 H5) as (M1 & M2 & M3 & M4).
    repeat split; try (constructor; assumption); auto.
    intros x Hx Hy. inversion Hx; subst. inversion Hy; subst. constructor; auto.
Qed.
Lemma map2_Forall2_max : forall a b : point, length a = length b -> no_nan a -> no_nan b ->
  let m := map2 (fun v o => if fltb o v then v else o) a b in
  length m = length a /\ Forall2 fle a m /\ Forall2 fle b m /\
  (forall x, Forall2 fle a x -> Forall2 fle b x -> Forall2 fle m x) /\ no_nan m.
Proof.
  unfold no_nan. induction a as [|v a IH]; intros [|o b] L Na Nb; try discriminate; cbn.
  - repeat split; auto.
  - inversion Na; inversion Nb; subst. injection L as L.
    destruct (IH b L H2 H6) as (I1 & I2 & I3 & I4 & I5).
    destruct (max_if v o H1 H5) as (M1 & M2 & M3 & M4).
    repeat split; try (constructor; assumption); auto.
    intros x Hx Hy. inversion Hx; subst. inversion Hy; subst. constructor; auto.
Qed.

Lemma ordered_no_nan : forall d b, ordered d b -> no_nan (bmin b) /\ no_nan (bmax b).
Proof.
  intros d b (_ & _ & O). split; clear -O; induction O; constructor; auto.
  eapply fle_nan_l; eauto. eapply fle_nan_r; eauto.
Qed.

Lemma Forall2_fle_trans : forall a b c : point, Forall2 fle a b -> Forall2 fle b c -> Forall2 fle a c.
Proof.
  intros a b c H. revert c. induction H; intros c G; inversion G; subst; constructor; auto.
  eapply fle_trans; eauto.
Qed.

Lemma enclosing_lub : forall d a b, ordered d a -> ordered d b -> ~ is_zero_box a ->
  let e := bounds_enclosing a b in
  ordered d e /\ sub_box a e /\ sub_box b e /\
  (forall c, sub_box a c -> sub_box b c -> sub_box e c).
Proof.
  intros d a b Oa Ob NZ e.
  destruct (ordered_no_nan _ _ Oa) as [Na1 Na2]. destruct (ordered_no_nan _ _ Ob) as [Nb1 Nb2].
  destruct Oa as (L1 & L2 & Oa). destruct Ob as (L3 & L4 & Ob).
  unfold e, bounds_enclosing. destruct (bounds_eqb a _) eqn:E.
  { exfalso. apply NZ. apply (zero_box_iff a (length (bmin a))) in E; auto. congruence. }
  destruct (map2_Forall2_min (bmin a) (bmin b)) as (A1 & A2 & A3 & A4 & A5); try assumption. congruence.
  destruct (map2_Forall2_max (bmax a) (bmax b)) as (B1 & B2 & B3 & B4 & B5); try assumption. congruence.
  split; [|split; [|split]].
  - repeat split; cbn; try congruence.
    eapply Forall2_fle_trans; [exact A2|]. eapply Forall2_fle_trans; [exact Oa|exact B2].
  - split; assumption.
  - split; assumption.
  - intros c [C1 C2] [C3 C4]. split; cbn; auto.
Qed.

(** ** C14: Bounds::overlapping *)
Lemma fmin_if : forall x y : f32, is_nan x = false -> is_nan y = false ->
  fmin x y = if fltb x y then x else y.
Proof. intros x y Nx Ny. unfold fmin. now rewrite Nx, Ny. Qed.
Lemma fmax_if : forall x y : f32, is_nan x = false -> is_nan y = false ->
  fmax x y = if fltb y x then x else y.
Proof. intros x y Nx Ny. unfold fmax. now rewrite Nx, Ny. Qed.

Lemma overlap_loop_spec : forall d (a b c e : point),
  length a = d -> length b = d -> length c = d -> length e = d ->
  no_nan a -> no_nan b -> no_nan c -> no_nan e ->
  let thin i := let hi := fmin (nth i b f0) (nth i e f0) in let lo := fmax (nth i a f0) (nth i c f0) in
    fltb hi lo = true \/ relative_eq hi lo = true in
  match overlap_loop a b c e with
  | Some (mn, mx) => (forall i, (i < d)%nat -> ~ thin i) /\
      length mn = d /\ length mx = d /\ Forall2 fle mn mx /\
      (Forall2 fle a mn /\ Forall2 fle c mn /\ forall x, Forall2 fle a x -> Forall2 fle c x -> Forall2 fle mn x) /\
      (Forall2 fle mx b /\ Forall2 fle mx e /\ forall x, Forall2 fle x b -> Forall2 fle x e -> Forall2 fle x mx)
  | None => exists i, (i < d)%nat /\ thin i
  end.
Proof.
  induction d as [|d IH]; intros a b c e La Lb Lc Le Na Nb Nc Ne thin.
  - destruct a, b, c, e; try discriminate. cbn. repeat split; auto. intros; lia.
  - destruct a as [|x a], b as [|y b], c as [|z c], e as [|w e]; try discriminate.
    injection La as La. injection Lb as Lb. injection Lc as Lc. injection Le as Le.
    pose proof (Forall_inv Na) as N1. pose proof (Forall_inv Nb) as N2. pose proof (Forall_inv Nc) as N3. pose proof (Forall_inv Ne) as N4.
    apply Forall_inv_tail in Na, Nb, Nc, Ne. cbn [overlap_loop].
    assert (T0 : thin 0%nat = (fltb (fmin y w) (fmax x z) = true \/ relative_eq (fmin y w) (fmax x z) = true)) by reflexivity.
    destruct (fltb (fmin y w) (fmax x z) || relative_eq (fmin y w) (fmax x z)) eqn:T.
    + exists 0%nat. split; [lia|]. rewrite T0. now apply orb_true_iff.
    + rewrite fmin_if, fmax_if in * by assumption.
      destruct (min_if y w) as (M1 & M2 & M3 & M4); try assumption.
      destruct (max_if x z) as (X1 & X2 & X3 & X4); try assumption.
      set (mm := if fltb y w then y else w) in *. set (xx := if fltb z x then x else z) in *.
      apply orb_false_iff in T. destruct T as [T T'].
      specialize (IH a b c e La Lb Lc Le Na Nb Nc Ne).
      destruct (overlap_loop a b c e) as [[mn mx]|].
      * destruct IH as (I0 & I1 & I2 & I3 & (I4 & I5 & I6) & (I7 & I8 & I9)).
        split; [|cbn; split; [lia|split; [lia|split; [|split]]]].
        -- intros [|i] Hi. rewrite T0. rewrite T, T'. intuition discriminate. apply I0. lia.
        -- constructor; [|assumption]. apply fltb_false_iff in T; try assumption.
           apply fleb_iff. repeat split; assumption.
        -- repeat split; try (constructor; assumption).
           intros p Hp Hq. inversion Hp; subst. inversion Hq; subst. constructor; auto.
        -- repeat split; try (constructor; assumption).
           intros p Hp Hq. inversion Hp; subst. inversion Hq; subst. constructor; auto.
      * destruct IH as (i & Hi & A). exists (S i). split; [lia|]. exact A.
Qed.

Lemma overlapping_spec : forall d a b, ordered d a -> ordered d b ->
  let o := bounds_overlapping a b in
  ((exists i, (i < d)%nat /\ thin_overlap a b i) -> o = bounds_empty d) /\
  ((forall i, (i < d)%nat -> ~ thin_overlap a b i) ->
     ordered d o /\ sub_box o a /\ sub_box o b /\ (forall p, inside o p <-> inside a p /\ inside b p)).
Proof.
  intros d a b Oa Ob o.
  destruct (ordered_no_nan _ _ Oa) as [Na1 Na2]. destruct (ordered_no_nan _ _ Ob) as [Nb1 Nb2].
  destruct Oa as (L1 & L2 & Oa). destruct Ob as (L3 & L4 & Ob).
  pose proof (overlap_loop_spec d (bmin a) (bmax a) (bmin b) (bmax b) L1 L2 L3 L4 Na1 Na2 Nb1 Nb2) as H.
  unfold o, bounds_overlapping. destruct (overlap_loop _ _ _ _) as [[mn mx]|].
  - destruct H as (I0 & I1 & I2 & I3 & (I4 & I5 & I6) & (I7 & I8 & I9)).
    split. { intros (i & Hi & T). elim (I0 i Hi T). }
    intros _. split; [repeat split; assumption|]. split; [split; assumption|]. split; [split; assumption|].
    intro p. unfold inside. cbn. split.
    + intros [P1 P2]. repeat split; eapply Forall2_fle_trans; eauto.
    + intros [[P1 P2] [P3 P4]]. split; auto.
  - rewrite L1. split; [reflexivity|]. destruct H as (i & Hi & T). intro N. elim (N i Hi T).
Qed.

(** relative_eq in terms of reals *)
Lemma fabs_fin : forall x : f32, is_finite x = true -> is_finite (fabs x) = true /\ B2R (fabs x) = Rabs (B2R x).
Proof. intros x F. unfold fabs. rewrite is_finite_Babs, B2R_Babs. auto. Qed.

Lemma feps_fin : is_finite feps = true. Proof. reflexivity. Qed.
Lemma feps_real : B2R feps = / 8388608.
Proof. to_SF feps. Qed.

Lemma relative_eq_close : forall x y : f32, is_finite x = true -> is_finite y = true ->
  relative_eq x y = true ->
  Rabs (B2R x - B2R y) <= bp (-22) * Rmax 1 (Rmax (Rabs (B2R y)) (Rabs (B2R x))).
Proof.
  intros x y Fx Fy H. replace (bp (-22)) with (/ 4194304) by (unfold bpow; simpl; lra).
  set (M := Rmax 1 (Rmax (Rabs (B2R y)) (Rabs (B2R x)))).
  assert (M1 : 1 <= M) by apply Rmax_l.
  assert (M2 : Rabs (B2R y) <= M). { eapply Rle_trans; [apply Rmax_l|apply Rmax_r]. }
  assert (M3 : Rabs (B2R x) <= M). { eapply Rle_trans; [apply Rmax_r|apply Rmax_r]. }
  unfold relative_eq, relative_eq_with in H. destruct (feqb x y) eqn:E.
  { apply feqb_iff in E. destruct E as (_ & _ & E). rewrite !ext_finite in E by assumption.
    rewrite E, Rminus_diag_eq, Rabs_R0 by reflexivity. lra. }
  replace (is_inf x) with false in H by (destruct x; try discriminate; reflexivity).
  replace (is_inf y) with false in H by (destruct y; try discriminate; reflexivity).
  cbn [orb] in H.
  destruct (fsub_ext x y Fx Fy) as [Nd Ed]. set (d := fsub x y) in *.
  set (D := B2R x - B2R y) in *.
  pose proof (rnd_err D) as RE. pose proof bp_m150_u as U. unfold u32 in *.
  (* the difference is finite when compared below a finite number *)
  assert (FD : forall z : f32, is_finite z = true -> fleb (fabs d) z = true ->
     Rabs (rnd D) <= B2R z).
  { intros z Fz Hz. apply fleb_iff in Hz. destruct Hz as (_ & _ & Hz). rewrite (ext_finite z) in Hz by assumption.
    assert (Fd : is_finite d = true).
    { destruct (is_finite d) eqn:Fd; [reflexivity|exfalso]. destruct d as [|s| |]; try discriminate.
      simpl in Hz. pose proof (B2R_lt_emax z) as Bz. apply Rabs_lt_inv in Bz. lra. }
    destruct (fabs_fin d Fd) as [Fa Ea]. rewrite ext_finite, Ea in Hz by assumption.
    rewrite ext_finite in Ed by assumption.
    rewrite clamp_lt_id in Ed. rewrite <- Ed. assumption.
    apply clamp_abs_lt. rewrite <- Ed. apply B2R_lt_emax. }
  assert (FIN : Rabs (rnd D) <= / 8388608 * M * (1 + / 1000) -> Rabs D <= / 4194304 * M).
  { intro A. apply Rabs_le_inv in A. apply Rabs_le_inv in RE.
    assert (D <= / 4194304 * M /\ - D <= / 4194304 * M).
    { destruct (Rle_or_lt 0 D).
      - rewrite (Rabs_pos_eq D) in RE by assumption. lra.
      - rewrite (Rabs_left D) in RE by assumption. lra. }
    apply Rabs_le. lra. }
  destruct (fleb (fabs d) feps) eqn:E1.
  { apply FIN. eapply Rle_trans. apply (FD feps feps_fin E1). rewrite feps_real. lra. }
  destruct (fabs_fin x Fx) as [Fax Eax]. destruct (fabs_fin y Fy) as [Fay Eay].
  set (l := if fltb (fabs x) (fabs y) then fabs y else fabs x) in H.
  assert (Fl : is_finite l = true) by (unfold l; destruct fltb; assumption).
  assert (El : 0 <= B2R l <= M).
  { unfold l; destruct fltb; rewrite ?Eax, ?Eay; split; try assumption; apply Rabs_pos. }
  pose proof (rnd_err (B2R l * / 8388608)) as RM.
  destruct (fmul_fin l feps Fl feps_fin) as [Fm Em].
  { rewrite feps_real. apply Rle_lt_trans with (B2R l); [|].
    - assert (0 <= B2R l * / 8388608 <= B2R l) by lra.
      rewrite Rabs_pos_eq. rewrite <- (rnd_float l) at 2. apply rnd_le; lra.
      rewrite <- rnd_0. apply rnd_le. lra.
    - pose proof (B2R_lt_emax l) as B. apply Rabs_lt_inv in B. lra. }
  rewrite feps_real in Em.
  apply FIN. eapply Rle_trans. apply (FD _ Fm H). rewrite Em.
  apply Rabs_le_inv in RM. rewrite (Rabs_pos_eq (B2R l * _)) in RM by lra.
  destruct RM as [_ RM]. unfold u32 in RM. clear - RM U El M1. lra.
Qed.

Lemma fmin_cases : forall x y : f32, fmin x y = x \/ fmin x y = y.
Proof. intros x y. unfold fmin. destruct (is_nan x), (is_nan y), (fltb x y); auto. Qed.
Lemma fmax_cases : forall x y : f32, fmax x y = x \/ fmax x y = y.
Proof. intros x y. unfold fmax. destruct (is_nan x), (is_nan y), (fltb y x); auto. Qed.

Lemma clearly_below_not_thin : forall lo hi : f32, clearly_below lo hi ->
  ~ (fltb hi lo = true \/ relative_eq hi lo = true).
Proof.
  intros lo hi (Fl & Fh & H) T. unfold finite, real in *.
  assert (P : 0 <= bp (-22) * Rmax 1 (Rmax (Rabs (B2R lo)) (Rabs (B2R hi)))).
  { apply Rmult_le_pos. apply bpow_ge_0. eapply Rle_trans; [|apply Rmax_l]. lra. }
  destruct T as [T|T].
  - apply fltb_iff in T. destruct T as (_ & _ & T). rewrite !ext_finite in T by assumption. lra.
  - apply relative_eq_close in T; try assumption. apply Rabs_le_inv in T. lra.
Qed.

Lemma overlapping_clear : forall d a b, ordered d a -> ordered d b ->
  (forall i, (i < d)%nat -> forall lo hi,
     (lo = nth i (bmin a) f0 \/ lo = nth i (bmin b) f0) ->
     (hi = nth i (bmax a) f0 \/ hi = nth i (bmax b) f0) -> clearly_below lo hi) ->
  forall p, inside (bounds_overlapping a b) p <-> inside a p /\ inside b p.
Proof.
  intros d a b Oa Ob H. destruct (overlapping_spec d a b Oa Ob) as [_ S].
  apply S. intros i Hi T. unfold thin_overlap in T. revert T. apply clearly_below_not_thin.
  apply (H i Hi). apply fmax_cases. apply fmin_cases.
Qed.

(** ** C15: cell bounds and metric bounds *)
Lemma pcc_zero_fin : forall (c : Z) (r : f32), is_finite r = true ->
  bp (-100) <= B2R r <= bp 100 -> (Z.abs c <= 2 ^ 24)%Z ->
  let p := point_coord_from_cell_coord F32A c f0 r in
  is_finite p = true /\ Rabs (B2R p - IZR c * B2R r) <= u32 * (Rabs (IZR c) * B2R r).
Proof.
  intros c r Fr [Hr1 Hr2] Hc p.
  assert (Hr0 : 0 < B2R r). { pose proof (bpow_gt_0 radix2 (-100)). lra. }
  assert (Hcr : Rabs (IZR c) <= 16777216).
  { rewrite <- abs_IZR. change 16777216 with (IZR (2^24)). now apply IZR_le. }
  destruct (f32_of_Z_exact c Hc) as [Fc Ec].
  assert (B100 : bp 100 * 16777216 * 8 = bp 127).
  { change 127%Z with (100 + 27)%Z. rewrite bpow_plus. change (bp 27) with 134217728. lra. }
  assert (A0 : Rabs (IZR c * B2R r) = Rabs (IZR c) * B2R r).
  { rewrite Rabs_mult, (Rabs_pos_eq (B2R r)) by lra. reflexivity. }
  assert (A1 : Rabs (IZR c * B2R r) <= bp 127).
  { rewrite A0. pose proof (bpow_gt_0 radix2 100). pose proof (Rabs_pos (IZR c)). nra. }
  destruct (fmul_fin (f32_of_Z c) r Fc Fr) as [Fm Em].
  { rewrite Ec. now apply rnd_abs_lt_128. }
  rewrite Ec in Em.
  destruct (fadd_fin (fmul (f32_of_Z c) r) f0 Fm eq_refl) as [Fp Ep].
  { simpl (B2R f0). rewrite Rplus_0_r, rnd_float. apply B2R_lt_emax. }
  simpl (B2R f0) in Ep. rewrite Rplus_0_r, rnd_float, Em in Ep.
  unfold p, point_coord_from_cell_coord. cbn [tadd tmul t_of_isize F32A].
  split; [assumption|]. rewrite Ep.
  destruct (Z.eq_dec c 0) as [->|Nc].
  { rewrite Rmult_0_l, rnd_0, Rminus_0_r, Rabs_R0. lra. }
  rewrite <- A0. apply rnd_rel_normal. rewrite A0.
  assert (1 <= Rabs (IZR c)). { rewrite <- abs_IZR. apply IZR_le. lia. }
  apply Rle_trans with (bp (-100)). apply bpow_le; lia. nra.
Qed.

Lemma within_zero : forall r n, res_ok r -> (0 <= n)%Z -> within_cells n r f0.
Proof.
  intros r n Hr Hn. split. reflexivity. unfold real. simpl. rewrite Rabs_R0.
  pose proof (res_ok_pos r Hr). apply Rmult_le_pos; [|lra]. now apply IZR_le.
Qed.

Lemma round_trip_origin : forall (c : cell) r, res_ok r -> Forall (fun x => (Z.abs x <= 2 ^ 20)%Z) c ->
  cell_from_point F32A (point_from_cell F32A c (origin (length c)) r) (origin (length c)) r = c.
Proof.
  intros c r Hr Hc. apply round_trip; try assumption.
  - unfold origin. apply repeat_length.
  - unfold origin. apply Forall_forall. intros x Hx. apply repeat_spec in Hx. subst. apply within_zero; [assumption|lia].
Qed.

Lemma ccp_of_zero : forall (x r : f32), res_ok r -> feqb x f0 = true ->
  cell_coord_from_point_coord F32A x f0 r = 0%Z.
Proof.
  intros x r Hr H. pose proof (res_ok_pos r Hr) as P. destruct Hr as [Fr Hr].
  apply feqb_iff in H. destruct H as (N & _ & H). change (ext f0) with 0 in H.
  assert (F : is_finite x = true).
  { apply ext_lt_finite. assumption. rewrite H, Rabs_R0. apply bp128_pos. }
  rewrite ext_finite in H by assumption.
  apply ccp_close; try assumption; try reflexivity. lia.
  rewrite H. simpl (B2R f0). replace (0 - 0 - 0 * B2R r) with 0 by ring. rewrite Rabs_R0.
  replace (0 / B2R r) with 0 by (field; lra). pose proof bp_m150_u. unfold u32 in *. lra.
Qed.

Lemma map2_length' : forall {A B C} (f : A -> B -> C) l m, length (map2 f l m) = Nat.min (length l) (length m).
Proof. intros A B C f. induction l; intros [|y m]; cbn; auto. Qed.

Lemma pfc_zero : forall (c : cell) r, res_ok r -> Forall (fun x => (Z.abs x <= 2 ^ 20)%Z) c ->
  Forall (fun x => feqb x f0 = true) (point_from_cell F32A c (origin (length c)) r) ->
  c = cell_origin (length c).
Proof.
  intros c r Hr Hc H. rewrite <- (round_trip_origin c r Hr Hc) at 1.
  assert (L : length (point_from_cell F32A c (origin (length c)) r) = length c).
  { unfold point_from_cell, origin. etransitivity; [apply map2_length'|]. rewrite repeat_length. lia. }
  revert H L. generalize (point_from_cell F32A c (origin (length c)) r). intro p.
  generalize (length c). clear c Hc. unfold cell_from_point, origin, cell_origin.
  induction p as [|x p IH]; intros [|n] H L; try discriminate; [reflexivity|].
  inversion H; subst. cbn [map2 repeat]. f_equal. now apply ccp_of_zero. apply IH; auto.
Qed.

Lemma cell_bounds_round_trip : forall d (cb : cell_bounds) r, res_ok r ->
  length (cmin cb) = d -> length (cmax cb) = d ->
  Forall (fun x => (Z.abs x <= 2 ^ 20)%Z) (cmin cb) -> Forall (fun x => (Z.abs x <= 2 ^ 20)%Z) (cmax cb) ->
  cb_from_bounds (bounds_from_cell_bounds cb r) r = cb.
Proof.
  intros d [mn mx] r Hr L1 L2 H1 H2. cbn [cmin cmax] in *. unfold cb_from_bounds, bounds_from_cell_bounds.
  cbv zeta. cbn [bmin bmax cmin cmax].
  assert (L1' : @length f32 (point_from_cell F32A mn (origin (length mn)) r) = d).
  { unfold point_from_cell, origin. etransitivity; [apply map2_length'|]. rewrite repeat_length. lia. }
  assert (L2' : @length f32 (point_from_cell F32A mx (origin (length mn)) r) = d).
  { unfold point_from_cell, origin. etransitivity; [apply map2_length'|]. rewrite repeat_length. lia. }
  rewrite L1'. destruct (bounds_eqb _ _) eqn:E.
  - apply zero_box_iff in E; cbn; try assumption. destruct E as [E1 E2]. cbn in E1, E2.
    apply pfc_zero in E1; try assumption. replace (length mn) with (length mx) in E2 by congruence.
    apply pfc_zero in E2; try assumption. unfold cb_empty. rewrite L1 in E1. rewrite L2 in E2. congruence.
  - f_equal.
    + rewrite <- L1. apply round_trip_origin; assumption.
    + replace (length mn) with (length mx) by congruence. rewrite <- L2. apply round_trip_origin; assumption.
Qed.

Lemma span_coord : forall (a b : Z) (r : f32), res_ok r -> (Z.abs a <= 2 ^ 20)%Z -> (Z.abs b <= 2 ^ 20)%Z ->
  cell_coord_from_point_coord F32A (point_coord_from_cell_coord F32A b f0 r)
    (point_coord_from_cell_coord F32A a f0 r) r = (b - a)%Z.
Proof.
  intros a b r HR Ha Hb. pose proof (res_ok_pos r HR) as P. destruct HR as [Fr Hr].
  unfold real in Hr.
  destruct (pcc_zero_fin a r Fr Hr ltac:(lia)) as [Fa Ea].
  destruct (pcc_zero_fin b r Fr Hr ltac:(lia)) as [Fb Eb].
  set (pa := point_coord_from_cell_coord F32A a f0 r) in *.
  set (pb := point_coord_from_cell_coord F32A b f0 r) in *.
  assert (Har : Rabs (IZR a) <= 1048576).
  { rewrite <- abs_IZR. change 1048576 with (IZR (2^20)). now apply IZR_le. }
  assert (Hbr : Rabs (IZR b) <= 1048576).
  { rewrite <- abs_IZR. change 1048576 with (IZR (2^20)). now apply IZR_le. }
  apply ccp_close; try assumption. lia.
  rewrite minus_IZR.
  assert (X : Rabs (B2R pb - B2R pa - (IZR b - IZR a) * B2R r) / B2R r <= u32 * 2097152).
  { apply Rmult_le_reg_r with (B2R r). lra. unfold Rdiv. rewrite Rmult_assoc, Rinv_l, Rmult_1_r by lra.
    replace (B2R pb - B2R pa - (IZR b - IZR a) * B2R r)
      with ((B2R pb - IZR b * B2R r) + - (B2R pa - IZR a * B2R r)) by ring.
    eapply Rle_trans. apply Rabs_triang. rewrite Rabs_Ropp. unfold u32 in *. nra. }
  assert (Y : Rabs (IZR b - IZR a) <= 2097152).
  { unfold Rminus. eapply Rle_trans. apply Rabs_triang. rewrite Rabs_Ropp. lra. }
  pose proof bp_m150_u. unfold u32 in *. lra.
Qed.

Lemma span_cells : forall d (cb : cell_bounds) r, res_ok r ->
  length (cmin cb) = d -> length (cmax cb) = d ->
  Forall (fun x => (Z.abs x <= 2 ^ 20)%Z) (cmin cb) -> Forall (fun x => (Z.abs x <= 2 ^ 20)%Z) (cmax cb) ->
  let b := bounds_from_cell_bounds cb r in
  cell_from_point F32A (bmax b) (bmin b) r = map2 Z.sub (cmax cb) (cmin cb).
Proof.
  intros d [mn mx] r Hr L1 L2 H1 H2. cbn [cmin cmax] in *. unfold bounds_from_cell_bounds.
  cbv zeta. cbn [bmin bmax cmin cmax]. unfold cell_from_point, point_from_cell, origin.
  assert (L : length mx = length mn) by congruence. clear L1 L2.
  assert (Lr : (length mn <= length mn)%nat) by lia. revert Lr. generalize (length mn) at 2 3 4. intro k.
  revert mx L H2 k. induction mn as [|a mn IH]; intros [|b mx] L H2 k Lk; cbn in L; try discriminate; [reflexivity|].
  inversion H1; inversion H2; subst. destruct k; cbn in Lk; [lia|]. cbn [repeat map2]. f_equal.
  - now apply span_coord.
  - apply IH; auto; lia.
Qed.

(** ** Boxes given by a size and an offset *)
Lemma cell_add_small : forall a b : cell, length a = length b ->
  Forall (fun x => (Z.abs x <= 2 ^ 20)%Z) (map2 Z.add a b) -> cell_add a b = Ret (map2 Z.add a b).
Proof.
  unfold cell_add. induction a as [|x a IH]; intros [|y b] L H; cbn in L; try discriminate; [reflexivity|].
  cbn [map2] in *. inversion H as [|? ? Hx Ha]; subst. cbn [combine omap fst snd].
  assert (E : isz (x + y) = Ret (x + y)%Z).
  { unfold isz, in_isize. replace ((isize_min <=? x + y) && (x + y <=? isize_max))%Z with true; [reflexivity|].
    symmetry. apply andb_true_intro. unfold isize_min, isize_max. split; apply Z.leb_le; lia. }
  rewrite E. cbn [obind]. rewrite IH by (auto; lia). reflexivity.
Qed.
Lemma add_origin : forall c : cell, map2 Z.add (cell_origin (length c)) c = c.
Proof. unfold cell_origin. induction c as [|x c IH]; [reflexivity|]. cbn [length repeat map2]. f_equal; exact IH. Qed.
Lemma add_sub_cells : forall a b : cell, length a = length b -> map2 Z.sub (map2 Z.add a b) b = a.
Proof.
  induction a as [|x a IH]; intros [|y b] L; cbn in L; try discriminate; [reflexivity|]. cbn [map2]. f_equal; [lia|]. apply IH. lia.
Qed.

Lemma from_size_box : forall d (size offset : cell) r, res_ok r -> length size = d -> length offset = d ->
  Forall (fun x => (Z.abs x <= 2 ^ 20)%Z) offset -> Forall (fun x => (Z.abs x <= 2 ^ 20)%Z) (map2 Z.add size offset) ->
  exists b, bounds_from_size_cells size r offset = Ret b /\
    cb_from_bounds b r = mkCB offset (map2 Z.add size offset) /\ cell_from_point F32A (bmax b) (bmin b) r = size.
Proof.
  intros d size offset r Hr L1 L2 H1 H2.
  assert (L3 : length (map2 Z.add size offset) = d) by (etransitivity; [apply map2_length'|]; lia).
  exists (bounds_from_cell_bounds (mkCB offset (map2 Z.add size offset)) r).
  unfold bounds_from_size_cells.
  rewrite cell_add_small, add_origin.
  2:{ unfold cell_origin. now rewrite repeat_length. }
  2:{ now rewrite add_origin. }
  cbn [obind]. rewrite cell_add_small by (auto; congruence). cbn [obind].
  split; [reflexivity|]. split.
  - apply (cell_bounds_round_trip d); assumption.
  - etransitivity; [apply (span_cells d); assumption|]. cbn [cmin cmax]. apply add_sub_cells. congruence.
Qed.

Lemma from_size_box_n : forall d (size offset : cell) (r : point), Forall res_ok r -> length r = d -> length size = d -> length offset = d ->
  Forall (fun x => (Z.abs x <= 2 ^ 20)%Z) offset -> Forall (fun x => (Z.abs x <= 2 ^ 20)%Z) (map2 Z.add size offset) ->
  exists b, bounds_from_size_cells_n size r offset = Ret b /\
    cell_from_point_n F32A (bmin b) (origin d) r = offset /\ cell_from_point_n F32A (bmax b) (origin d) r = map2 Z.add size offset.
Proof.
  intros d size offset r Hr L0 L1 L2 H1 H2.
  assert (L3 : length (map2 Z.add size offset) = d) by (etransitivity; [apply map2_length'|]; lia).
  assert (W : Forall2 (within_cells (2 ^ 20)) r (origin d)).
  { unfold origin. rewrite <- L0. clear - Hr. induction Hr as [|x r Hx Hr IH]; [constructor|]. cbn [length repeat]. constructor; [|exact IH].
    split; [reflexivity|]. cbn. destruct Hx as [Fx Hx]. rewrite Rabs_R0. apply Rmult_le_pos; [apply IZR_le; lia|].
    destruct Hx as [Hx _]. apply Rle_trans with (2 := Hx). apply bpow_ge_0. }
  exists (bounds_from_cell_bounds_n (mkCB offset (map2 Z.add size offset)) r).
  unfold bounds_from_size_cells_n.
  rewrite cell_add_small, add_origin.
  2:{ unfold cell_origin. now rewrite repeat_length. }
  2:{ now rewrite add_origin. }
  cbn [obind]. rewrite cell_add_small by (auto; congruence). cbn [obind].
  split; [reflexivity|]. unfold bounds_from_cell_bounds_n. cbn [bmin bmax cmin cmax]. rewrite L2.
  assert (Lo : @length f32 (origin d) = d) by apply repeat_length.
  split; apply round_trip_n; auto; unfold point in *; congruence.
Qed.
