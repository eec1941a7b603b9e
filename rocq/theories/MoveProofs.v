(** C89: the whole scene moved. *)
From Coq Require Import ZArith List Bool Reals Lra Lia Sorting.Permutation.
From Flocq Require Import Core BinarySingleNaN.
From Verif Require Import Base F32 FloatFacts Arith Geom NdArray GridMap RayCaster NoiseModel Spec SpecMap SpecNoise SpecShift SpecMove ConverterProofs RayProofs CastProofs RaysProofs NdProofs NoiseProofs GridProofs ExpandProofs MapProofs ShiftProofs ShiftFloatProofs MoveFloatProofs ShiftMapProofs ShiftGrowProofs.
Open Scope Z_scope.

(** ** Exact arithmetic *)
Definition plus (v p : list R) : list R := map2 Rplus p v.
Lemma plus_fin : forall v p p', moved_by v p p' -> p' = plus v p /\ length v = length p.
Proof.
  intros v p. unfold plus. revert v. induction p as [|x p IH]; intros [|y v] [|z p'] (L1 & L2 & M); cbn in *; try lia; [auto|].
  destruct (IH v p') as [E L]. { split; [lia|]. split; [lia|]. intros i Hi. apply (M (S i)). lia. }
  specialize (M 0%nat ltac:(lia)). cbn in M. subst. split; [reflexivity|lia].
Qed.
Lemma cell_exact : forall v p b r, length v = length b -> length p = length b ->
  cell_from_point RealA (map Fin (plus v p)) (map Fin (plus v b)) (Fin r) = cell_from_point RealA (map Fin p) (map Fin b) (Fin r).
Proof.
  unfold plus, cell_from_point. induction v as [|y v IH]; intros [|x p] [|z b] r L1 L2; cbn in *; try lia; [reflexivity|]. f_equal; [|apply IH; lia].
  unfold cell_coord_from_point_coord. cbn. do 3 f_equal. lra.
Qed.
Lemma vsub_exact : forall v e o, length v = length o -> length e = length o -> vsub RealA (map Fin (plus v e)) (map Fin (plus v o)) = vsub RealA (map Fin e) (map Fin o).
Proof. unfold plus, vsub. induction v as [|y v IH]; intros [|x e] [|z o] L1 L2; cbn in *; try lia; [reflexivity|]. f_equal; [f_equal; lra|apply IH; lia]. Qed.
Lemma t_max_exact : forall v b o (step dir : list xreal) r c, length v = length b -> length o = length b ->
  init_t_max RealA step (map Fin (plus v b)) (map Fin (plus v o)) dir (Fin r) c = init_t_max RealA step (map Fin b) (map Fin o) dir (Fin r) c.
Proof.
  unfold plus. induction v as [|y v IH]; intros [|x b] [|z o] [|s step] [|t dir] r [|k c] L1 L2; cbn in *; try lia; try reflexivity. f_equal; [|apply IH; lia].
  unfold axis_t_max. cbn. destruct (xeqb s (Fin 0)); [reflexivity|]. destruct s as [s|]; cbn; [|reflexivity]. destruct t as [t|]; cbn; [|reflexivity]. f_equal. unfold Rdiv. f_equal. ring.
Qed.
Lemma centre_exact : forall v b o r c, length v = length b -> length o = length b ->
  vsub RealA (point_from_cell RealA c (map Fin (plus v b)) (Fin r)) (map Fin (plus v o)) = vsub RealA (point_from_cell RealA c (map Fin b) (Fin r)) (map Fin o).
Proof.
  unfold plus, vsub, point_from_cell. induction v as [|y v IH]; intros [|x b] [|z o] r [|k c] L1 L2; cbn in *; try lia; try reflexivity. f_equal; [f_equal; lra|apply IH; lia].
Qed.
Lemma loop_exact : forall v b o r m ec st td, length v = length b -> length o = length b -> forall fuel c tm acc,
  ray_loop RealA fuel (mkEnv RealA (map Fin (plus v o)) (map Fin (plus v b)) (Fin r) m ec st td) c tm acc = ray_loop RealA fuel (mkEnv RealA (map Fin o) (map Fin b) (Fin r) m ec st td) c tm acc.
Proof.
  intros v b o r m ec st td L1 L2. induction fuel as [|fuel IH]; intros c tm acc; [reflexivity|]. cbn [ray_loop re_step re_t_delta re_end_cell].
  destruct (isz _); cbn [obind]; try reflexivity. destruct (cell_eqb _ _); [reflexivity|].
  unfold too_far. cbn [re_max_len re_bmin re_origin re_resolution]. rewrite centre_exact by assumption. rewrite IH. reflexivity.
Qed.
Lemma exact_moved : forall (o e b o' e' b' v : list R) r m fuel, length o = length b -> length e = length b ->
  moved_by v o o' -> moved_by v e e' -> moved_by v b b' ->
  cast_ray RealA fuel (map Fin o') (map Fin e') (map Fin b') (Fin r) m = cast_ray RealA fuel (map Fin o) (map Fin e) (map Fin b) (Fin r) m.
Proof.
  intros o e b o' e' b' v r m fuel Lo Le Mo Me Mb. destruct (plus_fin _ _ _ Mo) as [-> L1]. destruct (plus_fin _ _ _ Me) as [-> L2]. destruct (plus_fin _ _ _ Mb) as [-> L3].
  unfold cast_ray. assert (LL : length (map Fin (plus v o)) = length (map Fin o)). { rewrite !map_length. destruct Mo as [L _]. exact L. }
  change (T RealA) with xreal. rewrite LL. destruct (oassert _); cbn [obind]; try reflexivity.
  rewrite !cell_exact by lia. rewrite vsub_exact by lia. destruct (cell_eqb _ _); [reflexivity|]. cbv zeta. rewrite t_max_exact by lia. apply loop_exact; lia.
Qed.

(** ** f32 arithmetic *)
Lemma moved_len : forall v (p p' : point) d, moved_by v (map real p) (map real p') -> length p = d -> length p' = d /\ length v = d.
Proof. intros v p p' d (L1 & L2 & _) L. rewrite !map_length in *. lia. Qed.
(** Points moved by [v] and a corner moved by [v] and then down by [w] cells. *)
Lemma carried_along : forall d q k (b b' p p' : point) r v w, isu q (2 * k) r -> length b = d -> length p = d ->
  (forall i, (i < d)%nat -> (nth i (map real b') 0 = nth i (map real b) 0 + nth i v 0 - IZR (nth i w 0%Z) * real r)%R) ->
  moved_by v (map real p) (map real p') -> carried d q k b b' w p p'.
Proof.
  intros d q k b b' p p' r v w [_ Er] Lb Lp M (_ & _ & MP) i n n' a a' Hi [_ E1] [_ E2] [_ E3] [_ E4].
  specialize (M i Hi). specialize (MP i). rewrite map_length, Lp in MP. specialize (MP Hi). rewrite !nth_reals, E3, E4 in M. rewrite !nth_reals, E1, E2 in MP. unfold real in M. rewrite Er in M.
  apply eq_IZR. rewrite plus_IZR, !minus_IZR, mult_IZR. pose proof (u_pos q) as U. apply (Rmult_eq_reg_r (bpow radix2 q)); [|lra]. lra.
Qed.

Lemma ray_along : forall d q (o e b o' e' b' : point) r v w, (d = 2 \/ d = 3)%nat -> -60 <= q <= 30 -> length b = d -> length b' = d -> length w = d -> even_units q r ->
  Forall (units q) b -> Forall (units q) b' -> Forall (units q) o -> Forall (units q) e -> Forall (units q) o' -> Forall (units q) e' ->
  above (map real b) (map real o) -> above (map real b) (map real e) -> above (map real b') (map real o') -> above (map real b') (map real e') ->
  moved_by v (map real o) (map real o') -> moved_by v (map real e) (map real e') ->
  (forall i, (i < d)%nat -> (nth i (map real b') 0 = nth i (map real b) 0 + nth i v 0 - IZR (nth i w 0%Z) * real r)%R) ->
  forall fuel m, Z.of_nat fuel <= 2 ^ 61 -> fltb f0 m = false \/ (finite m /\ (real m <= IZR (2 ^ 21) * bpow radix2 q)%R) ->
  cast_ray F32A fuel o' e' b' r m = outcome_map (shifted_ray w) (cast_ray F32A fuel o e b r m).
Proof.
  intros d q o e b o' e' b' r v w Hd Hq Lb Lb' Lw Er Ub Ub' Uo Ue Uo' Ue' Ao Ae Ao' Ae' Mo Me M fuel m Hf Hm.
  destruct (even_isu q r Er) as (k & Hk & Hr).
  assert (Lo : length o = d). { destruct Ao as [L _]. rewrite !map_length in L. lia. }
  assert (Le : length e = d). { destruct Ae as [L _]. rewrite !map_length in L. lia. }
  destruct (moved_len v o o' d Mo Lo) as [Lo' _]. destruct (moved_len v e e' d Me Le) as [Le' _].
  apply (move_all d q k); try assumption.
  - now apply (carried_along d q k b b' o o' r v).
  - now apply (carried_along d q k b b' e e' r v).
  - now apply over_reals.
  - now apply over_reals.
  - now apply over_reals.
  - now apply over_reals.
Qed.

Lemma shifted_none : forall d c, length c = d -> shifted (repeat 0 d) c = c.
Proof. unfold shifted. intros d c <-. induction c as [|x c IH]; cbn; [reflexivity|]. rewrite IH. f_equal. lia. Qed.
Lemma map_none : forall d l, Forall (fun c : cell => length c = d) l -> map (shifted (repeat 0 d)) l = l.
Proof. intros d l H. induction H as [|c l L H IH]; cbn; [reflexivity|]. now rewrite IH, shifted_none. Qed.
Lemma nth_zeros : forall d i, nth i (repeat 0 d) 0 = 0.
Proof. induction d as [|d IH]; intros [|i]; cbn; auto. Qed.

Lemma ray_with_all : forall d q (o e b o' e' b' : point) r v, (d = 2 \/ d = 3)%nat -> -60 <= q <= 30 -> length b = d -> even_units q r ->
  Forall (units q) b -> Forall (units q) b' -> Forall (units q) o -> Forall (units q) e -> Forall (units q) o' -> Forall (units q) e' ->
  above (map real b) (map real o) -> above (map real b) (map real e) ->
  moved_by v (map real o) (map real o') -> moved_by v (map real e) (map real e') -> moved_by v (map real b) (map real b') ->
  forall fuel m, Z.of_nat fuel <= 2 ^ 61 -> fltb f0 m = false \/ (finite m /\ (real m <= IZR (2 ^ 21) * bpow radix2 q)%R) ->
  cast_ray F32A fuel o' e' b' r m = cast_ray F32A fuel o e b r m.
Proof.
  intros d q o e b o' e' b' r v Hd Hq Lb Er Ub Ub' Uo Ue Uo' Ue' Ao Ae Mo Me Mb fuel m Hf Hm.
  assert (Lo : length o = d). { destruct Ao as [L _]. rewrite !map_length in L. lia. }
  assert (Le : length e = d). { destruct Ae as [L _]. rewrite !map_length in L. lia. }
  assert (Lb' : length b' = d). { destruct Mb as [L _]. rewrite !map_length in L. lia. }
  assert (UP : forall p p', length p = d -> moved_by v (map real p) (map real p') -> above (map real b) (map real p) -> above (map real b') (map real p')).
  { intros p p' Lp (L1 & _ & M) [_ A]. destruct Mb as (B1 & _ & MB). split; [rewrite !map_length in *; lia|]. intros i Hi. rewrite B1 in Hi. rewrite MB by exact Hi. rewrite M by (rewrite !map_length in *; lia).
    specialize (A i Hi). lra. }
  pose proof (ray_along d q o e b o' e' b' r v (repeat 0 d) Hd Hq Lb Lb' (repeat_length 0 d) Er Ub Ub' Uo Ue Uo' Ue' Ao Ae (UP _ _ Lo Mo Ao) (UP _ _ Le Me Ae) Mo Me) as Q.
  rewrite Q; try assumption.
  - destruct (cast_ray F32A fuel o e b r m) as [[rc oe]| |] eqn:E; try reflexivity. cbn [outcome_map]. destruct (ray_sized fuel d o e b r m rc oe Hd Lo Le Lb E) as [S1 S2].
    unfold shifted_ray. cbn [fst snd]. rewrite map_none by exact S1. destruct oe as [c|]; [|reflexivity]. cbn. rewrite shifted_none; [reflexivity|]. now apply S2.
  - intros i Hi. destruct Mb as (_ & _ & M). rewrite M by (rewrite map_length; lia). rewrite nth_zeros. lra.
Qed.

Lemma Forall2_imp : forall (A B : Type) (P Q : A -> B -> Prop), (forall x y, P x y -> Q x y) -> forall l l', Forall2 P l l' -> Forall2 Q l l'.
Proof. intros A B P Q H l l' F. induction F; constructor; auto. Qed.
Lemma Forall2_in : forall (A B : Type) (P : A -> B -> Prop) l l', Forall2 P l l' -> Forall2 (fun x y => In x l /\ In y l' /\ P x y) l l'.
Proof.
  intros A B P l l' H. induction H as [|x y l l' H H1 IH]; constructor; [split; [now left|]; split; [now left|exact H]|].
  revert IH. apply Forall2_imp. intros a b (I1 & I2 & I3). cbn. auto.
Qed.

Lemma scan_along : forall d q o cloud o' cloud' bs bs' r v w, (d = 2 \/ d = 3)%nat -> -60 <= q <= 30 -> length (bmin bs) = d -> length (bmin bs') = d -> length w = d -> even_units q r ->
  Forall (units q) (bmin bs) -> Forall (units q) (bmin bs') -> in_view q (bmin bs) o cloud -> in_view q (bmin bs') o' cloud' -> moved_scan v o cloud o' cloud' ->
  (forall i, (i < d)%nat -> (nth i (map real (bmin bs')) 0 = nth i (map real (bmin bs)) 0 + nth i v 0 - IZR (nth i w 0%Z) * real r)%R) ->
  forall fuel m, Z.of_nat fuel <= 2 ^ 61 -> fltb f0 m = false \/ (finite m /\ (real m <= IZR (2 ^ 21) * bpow radix2 q)%R) ->
  cast_rays fuel o' cloud' bs' r m = outcome_map (shifted_sets w) (cast_rays fuel o cloud bs r m).
Proof.
  intros d q o cloud o' cloud' bs bs' r v w Hd Hq Lb Lb' Lw Er Ub Ub' V V' [Mo Mc] M fuel m Hf Hm.
  assert (Len : forall p, p = o \/ In p (pc_points cloud) -> length p = d).
  { intros p Hp. destruct (V p Hp) as (_ & [L _]). rewrite !map_length in L. lia. }
  apply (rays_moved d); auto. apply Forall2_in in Mc. revert Mc. apply Forall2_imp. intros p p' (I & I' & MP).
  destruct (V o (or_introl eq_refl)) as [Uo Ao]. destruct (V' o' (or_introl eq_refl)) as [Uo' Ao'].
  destruct (V p (or_intror I)) as [Up Ap]. destruct (V' p' (or_intror I')) as [Up' Ap'].
  apply (ray_along d q o p (bmin bs) o' p' (bmin bs') r v w); assumption.
Qed.
