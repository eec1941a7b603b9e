(** C88: moving the lower corner of the grid by whole cells. *)
From Coq Require Import ZArith List Bool Reals Lra Lia Psatz.
From Flocq Require Import Core.
From Verif Require Import Base F32 Arith Geom RayCaster Spec SpecShift RayProofs CastProofs IdealRay.
Open Scope Z_scope.

Lemma shifted_length : forall w c, length w = length c -> length (shifted w c) = length c.
Proof. unfold shifted. induction w; intros [|] H; cbn in *; try discriminate; auto. Qed.
Lemma nth_shifted : forall w c i, length w = length c -> (i < length c)%nat -> nth i (shifted w c) 0 = nth i c 0 + nth i w 0.
Proof. unfold shifted. induction w; intros [|x c] [|i] H L; cbn in *; try lia. apply IHw; lia. Qed.
Lemma shifted_inj : forall w c c', length w = length c -> length w = length c' -> shifted w c = shifted w c' -> c = c'.
Proof.
  unfold shifted. induction w; intros [|x c] [|y c'] H H' E; cbn in *; try discriminate; auto.
  injection E as E1 E2. f_equal; [lia|]. apply IHw; auto.
Qed.
Lemma shifted_eqb : forall w c c', length w = length c -> length w = length c' -> cell_eqb (shifted w c) (shifted w c') = cell_eqb c c'.
Proof.
  intros w c c' H H'. destruct (cell_eqb c c') eqn:E.
  - apply cell_eqb_eq in E. subst. apply cell_eqb_refl.
  - apply cell_eqb_neq. apply cell_eqb_neq in E. intro F. apply E. now apply (shifted_inj w).
Qed.
Lemma shifted_upd : forall w c i x, length w = length c -> (i < length c)%nat -> upd (shifted w c) i (x + nth i w 0) = shifted w (upd c i x).
Proof.
  unfold shifted. induction w; intros [|y c] [|i] x H L; cbn in *; try lia; auto.
  f_equal. apply IHw; lia.
Qed.

Section Loop.
Context (A : arith) (d : nat) (w : cell) (e e' : ray_env A) (P : cell -> Prop) (W : Z).
Hypothesis Hd : (d = 2 \/ d = 3)%nat.
Hypothesis Lw : length w = d.
Hypothesis Sw : small W w.
Hypothesis Lend : length (re_end_cell A e) = d.
Hypothesis Eend : re_end_cell A e' = shifted w (re_end_cell A e).
Hypothesis Estep : re_step A e' = re_step A e.
Hypothesis Edelta : re_t_delta A e' = re_t_delta A e.
Hypothesis Unit : forall i, Z.abs (t_to_isize A (nth i (re_step A e) (tzero A))) <= 1.
Hypothesis Far : forall c i x, length c = d -> P c -> (i < d)%nat -> Z.abs (x - nth i c 0) <= 1 ->
  too_far A e' (shifted w (upd c i x)) = too_far A e (upd c i x) /\ (too_far A e (upd c i x) = false -> P (upd c i x)).

Lemma small_nth : forall n c i, 0 <= n -> small n c -> Z.abs (nth i c 0) <= n.
Proof.
  intros n c i Hn H. destruct (Nat.lt_ge_cases i (length c)) as [L|L].
  - unfold small in H. rewrite Forall_forall in H. apply H. now apply nth_In.
  - rewrite nth_overflow by assumption. exact Hn.
Qed.
Lemma small_upd : forall n c i x, small n c -> Z.abs x <= n -> small n (upd c i x).
Proof.
  unfold small. intros n c. induction c as [|y c IH]; intros [|i] x H X; cbn; auto; inversion H; subst; constructor; auto.
Qed.
Lemma small_le : forall n m c, n <= m -> small n c -> small m c.
Proof. unfold small. intros n m c L H. apply (Forall_impl (fun z => Z.abs z <= m)) in H; [exact H|]. cbn. lia. Qed.

Lemma loop_shift : forall fuel cur tm acc n, 0 <= n -> 0 <= W -> n + Z.of_nat fuel + W <= 2 ^ 62 -> length cur = d -> length tm = d ->
  small n cur -> P cur ->
  ray_loop A fuel e' (shifted w cur) tm (map (shifted w) acc) = outcome_map (shifted_ray w) (ray_loop A fuel e cur tm acc).
Proof.
  induction fuel as [|fuel IH]; intros cur tm acc n Hn HW Hf Lc Lt Sc Pc; [reflexivity|].
  cbn [ray_loop]. assert (SD : (select_dim A tm < d)%nat). { rewrite <- Lt. apply select_dim_lt. rewrite Lt. exact Hd. }
  set (i := select_dim A tm) in *. rewrite Estep, Edelta, Eend.
  set (st := t_to_isize A (nth i (re_step A e) (tzero A))).
  assert (U := Unit i). fold st in U. rewrite nth_shifted by lia.
  assert (Bc := small_nth n cur i Hn Sc). assert (Bw := small_nth W w i HW Sw).
  unfold isz. assert (I1 : in_isize (nth i cur 0 + nth i w 0 + st) = true).
  { unfold in_isize. apply andb_true_iff. unfold isize_min, isize_max. change (2 ^ 62) with 4611686018427387904 in *.
    change (2 ^ 63) with 9223372036854775808. split; apply Z.leb_le; lia. }
  assert (I2 : in_isize (nth i cur 0 + st) = true).
  { unfold in_isize. apply andb_true_iff. unfold isize_min, isize_max. change (2 ^ 62) with 4611686018427387904 in *.
    change (2 ^ 63) with 9223372036854775808. split; apply Z.leb_le; lia. }
  rewrite I1, I2. cbn [obind]. replace (nth i cur 0 + nth i w 0 + st) with ((nth i cur 0 + st) + nth i w 0) by lia.
  rewrite shifted_upd by lia. set (c' := upd cur i (nth i cur 0 + st)).
  assert (Lc' : length c' = d). { unfold c'. now rewrite upd_length. }
  rewrite shifted_eqb by lia. destruct (cell_eqb c' (re_end_cell A e)).
  - cbn. reflexivity.
  - destruct (Far cur i (nth i cur 0 + st) Lc Pc SD) as [F1 F2]; [lia|]. fold c' in F1, F2. rewrite F1.
    destruct (too_far A e c') eqn:TF; [reflexivity|].
    pose proof (IH c' (upd tm i (tadd A (nth i tm (tinf A)) (nth i (re_t_delta A e) (tinf A)))) (acc ++ [c']) (n + 1)) as Q.
    rewrite map_app in Q. apply Q; auto; try lia.
    + now rewrite upd_length.
    + apply small_upd; [apply (small_le n); [lia|exact Sc]|lia].
Qed.
End Loop.

(** ** Exact arithmetic *)
Lemma centre_shift : forall r (b b' : list R) w c, moved_down r w b b' -> length c = length b ->
  point_from_cell RealA (shifted w c) (map Fin b') (Fin r) = point_from_cell RealA c (map Fin b) (Fin r).
Proof.
  intros r b b' w c (Lb' & Lw & M). revert b' w c Lb' Lw M.
  induction b as [|y b IH]; intros [|y' b'] [|z w] [|x c] Lb' Lw M Lc; cbn in *; try lia; [reflexivity|].
  unfold point_from_cell in *. cbn [shifted map map2]. f_equal.
  - unfold point_coord_from_cell_coord. cbn. specialize (M 0%nat ltac:(lia)). cbn in M. subst y'. rewrite plus_IZR. f_equal. ring.
  - apply (IH b' w c); try lia. intros i Hi. apply (M (S i)). lia.
Qed.

Lemma t_max_shift : forall r (b b' o : list R) w (step dir : list xreal) c, moved_down r w b b' -> length o = length b ->
  length step = length b -> length dir = length b -> length c = length b ->
  init_t_max RealA step (map Fin b') (map Fin o) dir (Fin r) (shifted w c) = init_t_max RealA step (map Fin b) (map Fin o) dir (Fin r) c.
Proof.
  intros r b b' o w step dir c (Lb' & Lw & M). revert b' w o step dir c Lb' Lw M. induction b as [|y b IH];
  intros [|y' b'] [|z w] [|p o] [|s step] [|t dir] [|x c] Lb' Lw M Lo Ls Ld Lc; cbn in *; try lia; [reflexivity|].
  f_equal.
  - unfold axis_t_max. cbn. destruct (xeqb s (Fin 0)); [reflexivity|]. destruct s as [s|]; [|reflexivity]. destruct t as [t|]; [|reflexivity].
    cbn. specialize (M 0%nat ltac:(lia)). cbn in M. subst y'. rewrite plus_IZR. do 3 f_equal. ring.
  - apply (IH b' w o step dir c); try lia. intros i Hi. apply (M (S i)). lia.
Qed.

Section Exact.
Context (d : nat) (o e b b' : list R) (r : R) (w : cell).
Hypothesis Hd : (d = 2 \/ d = 3)%nat.
Hypothesis Lo : length o = d.
Hypothesis Le : length e = d.
Hypothesis Lb : length b = d.
Hypothesis Hr : (0 < r)%R.
Hypothesis Mv : moved_down r w b b'.

Lemma nearest_shift : forall x n, (0 <= x)%R -> (0 <= x + IZR n)%R -> ZnearestA (x + IZR n) = ZnearestA x + n.
Proof.
  assert (F : forall x, (0 <= x)%R -> ZnearestA x = Zfloor (x + / 2)).
  { intros x Hx. unfold Znearest. case Rcompare_spec; intro C.
    - symmetry. apply Zfloor_imp. rewrite plus_IZR. pose proof (Zfloor_lb x). lra.
    - assert (Z0 : (0 <= Zfloor x)%Z) by (apply Zfloor_lub; exact Hx). rewrite (Zle_bool_true _ _ Z0).
      rewrite Zceil_floor_neq. 2:{ intro E. rewrite E in C. lra. }
      symmetry. apply Zfloor_imp. rewrite !plus_IZR. lra.
    - rewrite Zceil_floor_neq. 2:{ intro E. rewrite E in C. lra. }
      symmetry. apply Zfloor_imp. rewrite !plus_IZR. pose proof (Zfloor_ub x). lra. }
  intros x n Hx Hn. rewrite !F by assumption. replace (x + IZR n + / 2)%R with (x + / 2 + IZR n)%R by ring.
  apply Zfloor_imp. rewrite !plus_IZR. pose proof (Zfloor_lb (x + / 2)). pose proof (Zfloor_ub (x + / 2)). lra.
Qed.

Lemma nth_near : forall (B p : list R) i, length p = length B -> (i < length B)%nat ->
  nth i (nearest_cell B r p) 0 = ZnearestA ((nth i p 0%R - nth i B 0%R) / r).
Proof.
  unfold nearest_cell. intro B. induction B as [|y B IH]; intros [|x p] [|i] L Hi; cbn in *; try lia; try reflexivity.
  apply IH; lia.
Qed.
Lemma near_len : forall (B p : list R), length p = length B -> length (nearest_cell B r p) = length B.
Proof. unfold nearest_cell. intro B. induction B as [|y B IH]; intros [|x p] L; cbn in *; try lia. f_equal. apply IH. lia. Qed.

Lemma near_shift : forall p, above b p -> above b' p -> nearest_cell b' r p = shifted w (nearest_cell b r p).
Proof.
  intros p [L1 A1] [L2 A2]. destruct Mv as (Lb' & Lw & M). apply nth_ext_Z.
  - rewrite shifted_length; rewrite !near_len; lia.
  - intros i Hi. rewrite near_len in Hi by assumption. rewrite nth_shifted; [|rewrite near_len; lia|rewrite near_len; lia].
    rewrite !nth_near by lia. rewrite M by lia. specialize (A1 i ltac:(lia)). specialize (A2 i ltac:(lia)). rewrite M in A2 by lia.
    replace ((nth i p 0 - (nth i b 0 - IZR (nth i w 0%Z) * r)) / r)%R with ((nth i p 0 - nth i b 0) / r + IZR (nth i w 0%Z))%R by (field; lra).
    apply nearest_shift.
    + apply Rle_mult_inv_pos; lra.
    + replace ((nth i p 0 - nth i b 0) / r + IZR (nth i w 0%Z))%R with ((nth i p 0 - (nth i b 0 - IZR (nth i w 0%Z) * r)) / r)%R by (field; lra).
      apply Rle_mult_inv_pos; lra.
Qed.

Lemma sign_unit : forall (v : list xreal) i, Z.abs (t_to_isize RealA (nth i (signum RealA v) (tzero RealA))) <= 1.
Proof.
  intros v i. unfold signum. destruct (Nat.lt_ge_cases i (length v)) as [L|L].
  - rewrite (nth_indep _ _ (signum1 RealA (tzero RealA))) by (rewrite map_length; exact L). rewrite map_nth.
    unfold signum1. destruct (teqb RealA _ _); [|destruct (tltb RealA _ _)]; cbn -[Ztrunc Z.abs]; rewrite Ztrunc_IZR; easy.
  - rewrite nth_overflow by (rewrite map_length; exact L). cbn -[Ztrunc Z.abs]. rewrite Ztrunc_IZR. easy.
Qed.

Lemma exact_shift : above b o -> above b e -> above b' o -> above b' e -> small (2 ^ 60) w -> small (2 ^ 60) (nearest_cell b r o) ->
  forall fuel m, Z.of_nat fuel <= 2 ^ 61 ->
  cast_ray RealA fuel (map Fin o) (map Fin e) (map Fin b') (Fin r) m =
  outcome_map (shifted_ray w) (cast_ray RealA fuel (map Fin o) (map Fin e) (map Fin b) (Fin r) m).
Proof.
  intros Ao Ae Ao' Ae' Sw So fuel m Hf. unfold cast_ray.
  rewrite map_length, Lo. replace (Nat.eqb d 2 || Nat.eqb d 3) with true by (destruct Hd as [H0|H0]; rewrite H0; reflexivity). cbn [oassert obind].
  rewrite !cfp_real. rewrite !near_shift by assumption. pose proof Mv as Mv'. destruct Mv' as (Lb' & Lw & M).
  assert (Loc : length (nearest_cell b r o) = d) by (rewrite near_len; lia).
  assert (Lec : length (nearest_cell b r e) = d) by (rewrite near_len; lia).
  rewrite shifted_eqb by lia. destruct (cell_eqb _ _); [reflexivity|]. cbv zeta.
  assert (Lv : length (vsub RealA (map Fin e) (map Fin o)) = d).
  { unfold vsub. apply map2_len; rewrite map_length; lia. }
  set (dir := vdivs RealA _ _). assert (Ldir : length dir = d). { unfold dir, vdivs. rewrite map_length. exact Lv. }
  assert (Lst : length (signum RealA dir) = d). { unfold signum. now rewrite map_length. }
  rewrite (t_max_shift r b b' o w _ _ _ Mv (eq_trans Lo (eq_sym Lb)) (eq_trans Lst (eq_sym Lb)) (eq_trans Ldir (eq_sym Lb)) (eq_trans Loc (eq_sym Lb))).
  change [shifted w (nearest_cell b r o)] with (map (shifted w) [nearest_cell b r o]).
  apply (loop_shift RealA d w) with (P := fun _ => True) (W := 2 ^ 60) (n := 2 ^ 60); try assumption; try reflexivity; try exact I; cbn [re_step re_end_cell]; try lia.
  - intro i. apply sign_unit.
  - intros c i x Lc _ Hi _. split; [|intros; exact I]. unfold too_far. cbn [re_max_len re_bmin re_resolution re_origin].
    rewrite (centre_shift r b b' w); [reflexivity|assumption|]. rewrite upd_length. lia.
  - apply (length_init_t_max RealA d); try assumption; rewrite map_length; assumption.
Qed.
End Exact.
