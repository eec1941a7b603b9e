(** Rounding and multiplication by a power of two. *)
From Coq Require Import ZArith List Bool Reals Lia Lra.
From Flocq Require Import Core BinarySingleNaN.
From Verif Require Import Base F32 FloatFacts RayRange.
Open Scope R_scope.

Lemma rnd_scale : forall x k, x = 0 \/ (bp (-126) <= Rabs x /\ bp (-126) <= Rabs (x * bp k)) -> rnd (x * bp k) = rnd x * bp k.
Proof.
  intros x k [->|[H K]]; [now rewrite Rmult_0_l, !rnd_0, Rmult_0_l|].
  assert (X0 : x <> 0). { intros ->. rewrite Rabs_R0 in H. pose proof (bpow_gt_0 radix2 (-126)). lra. }
  assert (M1 : (-125 <= mag radix2 x)%Z). { apply mag_ge_bpow. exact H. }
  assert (M2 : (-125 <= mag radix2 (x * bp k))%Z). { apply mag_ge_bpow. exact K. }
  rewrite (mag_mult_bpow _ _ _ X0) in M2.
  assert (C : cexp radix2 fexp32 (x * bp k) = (cexp radix2 fexp32 x + k)%Z).
  { unfold cexp. rewrite (mag_mult_bpow _ _ _ X0). unfold SpecFloat.fexp, SpecFloat.emin. lia. }
  unfold round, scaled_mantissa. rewrite C. unfold F2R. cbn [Fnum Fexp].
  replace (x * bp k * bp (- (cexp radix2 fexp32 x + k))) with (x * bp (- cexp radix2 fexp32 x)).
  - rewrite bpow_plus. ring.
  - rewrite Rmult_assoc, <- bpow_plus. f_equal. f_equal. lia.
Qed.

Definition on_grid (g : Z) (x : R) : Prop := exists n, x = IZR n * bp g.
Lemma on_grid_0 : forall g, on_grid g 0.
Proof. intro g. exists 0%Z. ring. Qed.
Lemma on_grid_weaken : forall g h x, (h <= g)%Z -> on_grid g x -> on_grid h x.
Proof.
  intros g h x L (n & ->). exists (n * 2 ^ (g - h))%Z. rewrite mult_IZR. change 2%Z with (radix_val radix2) at 1. rewrite IZR_Zpower by lia. rewrite Rmult_assoc, <- bpow_plus. do 2 f_equal. lia.
Qed.
Lemma on_grid_rnd : forall g x, (-149 <= g)%Z -> on_grid g x -> on_grid g (rnd x).
Proof.
  intros g x Hg G. destruct (Z_le_gt_dec g (cexp radix2 fexp32 x)) as [L|L].
  - apply (on_grid_weaken (cexp radix2 fexp32 x)); [exact L|]. unfold round, F2R. cbn [Fnum Fexp]. now eexists.
  - rewrite round_generic; [exact G|auto with typeclass_instances|]. destruct (on_grid_weaken g (cexp radix2 fexp32 x) x ltac:(lia) G) as (n & En).
    rewrite En. change (generic_format radix2 fexp32 (F2R (Float radix2 n (cexp radix2 fexp32 x)))).
    apply generic_format_F2R. intros _. unfold F2R. cbn [Fnum Fexp]. rewrite <- En. lia.
Qed.
Lemma on_grid_plus : forall g x y, on_grid g x -> on_grid g y -> on_grid g (x + y).
Proof. intros g x y (n & ->) (m & ->). exists (n + m)%Z. rewrite plus_IZR. ring. Qed.
Lemma on_grid_opp : forall g x, on_grid g x -> on_grid g (- x).
Proof. intros g x (n & ->). exists (- n)%Z. rewrite opp_IZR. ring. Qed.
Lemma on_grid_mult : forall g h x y, on_grid g x -> on_grid h y -> on_grid (g + h) (x * y).
Proof. intros g h x y (n & ->) (m & ->). exists (n * m)%Z. rewrite mult_IZR, bpow_plus. ring. Qed.
Lemma on_grid_low : forall g x, on_grid g x -> x = 0 \/ bp g <= Rabs x.
Proof.
  intros g x (n & ->). destruct (Z.eq_dec n 0) as [->|N]; [left; ring|right]. rewrite Rabs_mult, (Rabs_pos_eq (bp g)) by apply bpow_ge_0.
  rewrite <- (Rmult_1_l (bp g)) at 1. apply Rmult_le_compat_r; [apply bpow_ge_0|]. rewrite <- abs_IZR. change 1 with (IZR 1). apply IZR_le. lia.
Qed.
Lemma float_grid : forall (x : f32) l, bp l <= Rabs (B2R x) -> on_grid (l - 23) (B2R x).
Proof.
  intros x l H. pose proof (generic_format_B2R 24 128 x) as F. unfold generic_format in F.
  apply (on_grid_weaken (cexp radix2 fexp32 (B2R x))).
  - pose proof (mag_ge_bpow radix2 (B2R x) (l + 1)). replace (l + 1 - 1)%Z with l in H0 by lia. apply H0 in H. unfold cexp, SpecFloat.fexp, SpecFloat.emin. lia.
  - unfold F2R in F. cbn [Fnum Fexp] in F. eexists. exact F.
Qed.
Lemma rnd_low : forall x l, (-149 <= l)%Z -> x = 0 \/ bp l <= Rabs x -> rnd x = 0 \/ bp l <= Rabs (rnd x).
Proof.
  intros x l Hl [->|H]; [left; apply rnd_0|right]. apply abs_round_ge_generic; auto with typeclass_instances.
  apply generic_format_bpow. unfold SpecFloat.fexp, SpecFloat.emin. lia.
Qed.

(** A number on the grid of 2^[g], zero or at least 2^[l], at most 2^[u], and the same number times 2^[k]. *)
Definition sized (g l u : Z) (x : f32) : Prop :=
  is_finite x = true /\ on_grid g (B2R x) /\ (B2R x = 0 \/ bp l <= Rabs (B2R x)) /\ Rabs (B2R x) <= bp u.
Definition sc (k g l u : Z) (x y : f32) : Prop := sized g l u x /\ sized g l u y /\ B2R y = B2R x * bp k.
Lemma sized_weaken : forall g l u g' l' u' x, (g' <= g)%Z -> (l' <= l)%Z -> (u <= u')%Z -> sized g l u x -> sized g' l' u' x.
Proof.
  intros g l u g' l' u' x Hg Hl Hu (F & G & L & U). split; [exact F|]. split; [now apply (on_grid_weaken g)|]. pose proof (bpow_le radix2 _ _ Hl). pose proof (bpow_le radix2 _ _ Hu).
  split; [destruct L; [now left|right; lra]|lra].
Qed.
Lemma sc_weaken : forall k g l u g' l' u' x y, (g' <= g)%Z -> (l' <= l)%Z -> (u <= u')%Z -> sc k g l u x y -> sc k g' l' u' x y.
Proof. intros k g l u g' l' u' x y Hg Hl Hu (X & Y & E). split; [|split]; [now apply (sized_weaken g l u)|now apply (sized_weaken g l u)|exact E]. Qed.

Section Op.
(** One rounded operation with exact result [r]. *)
Lemma sized_rnd : forall g u (z : f32) r, (-149 <= g)%Z -> (-149 <= u)%Z -> is_finite z = true -> B2R z = rnd r -> on_grid g r -> Rabs r <= bp u -> sized g g u z.
Proof.
  intros g u z r Hg Hu F E G U. split; [exact F|]. rewrite E. pose proof (on_grid_rnd g r Hg G) as G'. split; [exact G'|]. split; [now apply on_grid_low|now apply rnd_abs_le_bp].
Qed.
Lemma sc_rnd : forall k l (z z' : f32) r r', (-126 <= l)%Z -> B2R z = rnd r -> B2R z' = rnd r' -> (r = 0 \/ bp l <= Rabs r) -> (r' = 0 \/ bp l <= Rabs r') -> r' = r * bp k ->
  B2R z' = B2R z * bp k.
Proof.
  intros k l z z' r r' Hl E E' L L' ER. rewrite E, E', ER. apply rnd_scale. pose proof (bpow_le radix2 _ _ Hl). destruct L as [L|L]; [now left|]. right. split; [lra|].
  rewrite <- ER. destruct L' as [L'|L']; [|lra]. exfalso. rewrite L' in ER. symmetry in ER. apply Rmult_integral in ER. pose proof (bpow_gt_0 radix2 k). pose proof (bpow_gt_0 radix2 l).
  destruct ER as [ER|ER]; [|lra]. rewrite ER, Rabs_R0 in L. lra.
Qed.
End Op.
Lemma fin127 : forall r, Rabs r <= bp 127 -> Rabs (rnd r) < bp 128.
Proof. exact rnd_abs_lt_128. Qed.
Lemma add_bound : forall u x y, Rabs x <= bp u -> Rabs y <= bp u -> Rabs (x + y) <= bp (u + 1).
Proof. intros u x y X Y. rewrite bpow_plus. change (bp 1) with 2. pose proof (Rabs_triang x y). lra. Qed.
Lemma sized_add : forall g l u x y, (-126 <= g)%Z -> (0 <= u <= 126)%Z -> sized g l u x -> sized g l u y ->
  sized g g (u + 1) (fadd x y) /\ B2R (fadd x y) = rnd (B2R x + B2R y) /\ on_grid g (B2R x + B2R y).
Proof.
  intros g l u x y Hg Hu (Fx & Gx & _ & Ux) (Fy & Gy & _ & Uy). pose proof (add_bound u _ _ Ux Uy) as U. pose proof (bpow_le radix2 (u + 1) 127 ltac:(lia)) as B.
  destruct (fadd_fin x y Fx Fy) as [F E]; [apply fin127; lra|]. pose proof (on_grid_plus g _ _ Gx Gy) as G. split; [|now split].
  apply (sized_rnd g (u + 1) _ (B2R x + B2R y)); try assumption; lia.
Qed.
Lemma sc_add : forall k g l u x x' y y', (-126 <= g)%Z -> (0 <= u <= 126)%Z -> sc k g l u x x' -> sc k g l u y y' -> sc k g g (u + 1) (fadd x y) (fadd x' y').
Proof.
  intros k g l u x x' y y' Hg Hu (X & X' & EX) (Y & Y' & EY). destruct (sized_add g l u x y Hg Hu X Y) as (S & E & G). destruct (sized_add g l u x' y' Hg Hu X' Y') as (S' & E' & G').
  split; [exact S|]. split; [exact S'|]. apply (sc_rnd k g _ _ _ _ Hg E E'); try (now apply on_grid_low). rewrite EX, EY. ring.
Qed.
Lemma sized_sub : forall g l u x y, (-126 <= g)%Z -> (0 <= u <= 126)%Z -> sized g l u x -> sized g l u y ->
  sized g g (u + 1) (fsub x y) /\ B2R (fsub x y) = rnd (B2R x - B2R y) /\ on_grid g (B2R x - B2R y).
Proof.
  intros g l u x y Hg Hu (Fx & Gx & _ & Ux) (Fy & Gy & _ & Uy). pose proof Uy as Uy'. rewrite <- Rabs_Ropp in Uy'. pose proof (add_bound u _ _ Ux Uy') as U. pose proof (bpow_le radix2 (u + 1) 127 ltac:(lia)) as B.
  destruct (fsub_fin x y Fx Fy) as [F E]; [apply fin127; unfold Rminus; lra|]. pose proof (on_grid_plus g _ _ Gx (on_grid_opp g _ Gy)) as G. split; [|now split].
  apply (sized_rnd g (u + 1) _ (B2R x - B2R y)); try assumption; lia.
Qed.
Lemma sc_sub : forall k g l u x x' y y', (-126 <= g)%Z -> (0 <= u <= 126)%Z -> sc k g l u x x' -> sc k g l u y y' -> sc k g g (u + 1) (fsub x y) (fsub x' y').
Proof.
  intros k g l u x x' y y' Hg Hu (X & X' & EX) (Y & Y' & EY). destruct (sized_sub g l u x y Hg Hu X Y) as (S & E & G). destruct (sized_sub g l u x' y' Hg Hu X' Y') as (S' & E' & G').
  split; [exact S|]. split; [exact S'|]. apply (sc_rnd k g _ _ _ _ Hg E E'); try (now apply on_grid_low). rewrite EX, EY. ring.
Qed.
Lemma low_mult : forall l m x y, (x = 0 \/ bp l <= Rabs x) -> (y = 0 \/ bp m <= Rabs y) -> x * y = 0 \/ bp (l + m) <= Rabs (x * y).
Proof.
  intros l m x y [->|X] [->|Y]; try (left; ring). right. rewrite bpow_plus, Rabs_mult. apply Rmult_le_compat; try apply bpow_ge_0; assumption.
Qed.
Lemma sized_mul : forall g l u h m v x y, (-149 <= g + h)%Z -> (-126 <= l + m)%Z -> (-149 <= u + v <= 127)%Z -> sized g l u x -> sized h m v y ->
  sized (g + h) (l + m) (u + v) (fmul x y) /\ B2R (fmul x y) = rnd (B2R x * B2R y) /\ (B2R x * B2R y = 0 \/ bp (l + m) <= Rabs (B2R x * B2R y)).
Proof.
  intros g l u h m v x y Hg Hl Hu (Fx & Gx & Lx & Ux) (Fy & Gy & Ly & Uy).
  assert (U : Rabs (B2R x * B2R y) <= bp (u + v)). { rewrite Rabs_mult, bpow_plus. apply Rmult_le_compat; try apply Rabs_pos; assumption. }
  pose proof (bpow_le radix2 (u + v) 127 ltac:(lia)) as B. destruct (fmul_fin x y Fx Fy) as [F E]; [apply fin127; lra|].
  pose proof (low_mult l m _ _ Lx Ly) as L. split; [|now split]. split; [exact F|]. rewrite E. split; [apply on_grid_rnd; [lia|now apply on_grid_mult]|]. split; [apply rnd_low; [lia|exact L]|apply rnd_abs_le_bp; [lia|exact U]].
Qed.
Lemma sc_mul : forall j g l u k h m v x x' y y', (-149 <= g + h)%Z -> (-126 <= l + m)%Z -> (-149 <= u + v <= 127)%Z -> sc j g l u x x' -> sc k h m v y y' ->
  sc (j + k) (g + h) (l + m) (u + v) (fmul x y) (fmul x' y').
Proof.
  intros j g l u k h m v x x' y y' Hg Hl Hu (X & X' & EX) (Y & Y' & EY). destruct (sized_mul g l u h m v x y Hg Hl Hu X Y) as (S & E & L). destruct (sized_mul g l u h m v x' y' Hg Hl Hu X' Y') as (S' & E' & L').
  split; [exact S|]. split; [exact S'|]. apply (sc_rnd (j + k) (l + m) _ _ _ _ Hl E E' L L'). rewrite EX, EY, bpow_plus. ring.
Qed.
Lemma sized_div : forall g l u h m v x y, (-126 <= l - v)%Z -> (-149 <= u - m <= 127)%Z -> sized g l u x -> sized h m v y -> B2R y <> 0 ->
  sized (l - v - 23) (l - v) (u - m) (fdiv x y) /\ B2R (fdiv x y) = rnd (B2R x / B2R y) /\ (B2R x / B2R y = 0 \/ bp (l - v) <= Rabs (B2R x / B2R y)).
Proof.
  intros g l u h m v x y Hl Hu (Fx & Gx & Lx & Ux) (Fy & Gy & Ly & Uy) N. destruct Ly as [Ly|Ly]; [contradiction|].
  assert (P : 0 < Rabs (B2R y)) by now apply Rabs_pos_lt. pose proof (bpow_gt_0 radix2 m) as M0. pose proof (bpow_gt_0 radix2 v) as V0.
  assert (U : Rabs (B2R x / B2R y) <= bp (u - m)).
  { unfold Rdiv, Zminus. rewrite Rabs_mult, bpow_plus, bpow_opp, Rabs_inv. apply Rmult_le_compat; try apply Rabs_pos; [left; now apply Rinv_0_lt_compat|assumption|]. now apply Rinv_le. }
  assert (L : B2R x / B2R y = 0 \/ bp (l - v) <= Rabs (B2R x / B2R y)).
  { destruct Lx as [Lx|Lx]; [left; rewrite Lx; unfold Rdiv; ring|right]. unfold Rdiv, Zminus. rewrite Rabs_mult, bpow_plus, bpow_opp, Rabs_inv.
    apply Rmult_le_compat; [apply bpow_ge_0|left; now apply Rinv_0_lt_compat|assumption|now apply Rinv_le]. }
  pose proof (bpow_le radix2 (u - m) 127 ltac:(lia)) as B. destruct (fdiv_fin x y Fx Fy N) as [F E]; [apply fin127; lra|].
  split; [|now split]. assert (L' : B2R (fdiv x y) = 0 \/ bp (l - v) <= Rabs (B2R (fdiv x y))) by (rewrite E; apply rnd_low; [lia|exact L]).
  split; [exact F|]. split; [|split; [exact L'|rewrite E; apply rnd_abs_le_bp; [lia|exact U]]]. destruct L' as [->|L']; [apply on_grid_0|now apply float_grid].
Qed.
Lemma sc_nonzero : forall k g l u x x', sc k g l u x x' -> B2R x <> 0 -> B2R x' <> 0.
Proof. intros k g l u x x' (_ & _ & E) N. rewrite E. pose proof (bpow_gt_0 radix2 k). apply Rmult_integral_contrapositive_currified; [exact N|lra]. Qed.
Lemma sc_div : forall j g l u k h m v x x' y y', (-126 <= l - v)%Z -> (-149 <= u - m <= 127)%Z -> sc j g l u x x' -> sc k h m v y y' -> B2R y <> 0 ->
  sc (j - k) (l - v - 23) (l - v) (u - m) (fdiv x y) (fdiv x' y').
Proof.
  intros j g l u k h m v x x' y y' Hl Hu Hx Hy N. pose proof (sc_nonzero _ _ _ _ _ _ Hy N) as N'. destruct Hx as (X & X' & EX), Hy as (Y & Y' & EY).
  destruct (sized_div g l u h m v x y Hl Hu X Y N) as (S & E & L). destruct (sized_div g l u h m v x' y' Hl Hu X' Y' N') as (S' & E' & L').
  split; [exact S|]. split; [exact S'|]. apply (sc_rnd (j - k) (l - v) _ _ _ _ Hl E E' L L'). rewrite EX, EY. unfold Zminus. rewrite bpow_plus, bpow_opp. field. split; [|exact N]. pose proof (bpow_gt_0 radix2 k). lra.
Qed.
Lemma sqrt_bp : forall h, sqrt (bp (2 * h)) = bp h.
Proof. intro h. replace (2 * h)%Z with (h + h)%Z by lia. rewrite bpow_plus. apply sqrt_square, bpow_ge_0. Qed.
Lemma sized_sqrt : forall g h v x, (-126 <= h)%Z -> (-149 <= v <= 127)%Z -> sized g (2 * h) (2 * v) x -> 0 <= B2R x ->
  sized (h - 23) h v (fsqrt x) /\ B2R (fsqrt x) = rnd (sqrt (B2R x)) /\ (sqrt (B2R x) = 0 \/ bp h <= Rabs (sqrt (B2R x))).
Proof.
  intros g h v x Hh Hv (F & G & L & U) P. destruct (fsqrt_fin x F P) as [F' E].
  assert (L1 : sqrt (B2R x) = 0 \/ bp h <= Rabs (sqrt (B2R x))).
  { destruct L as [L|L]; [left; rewrite L; apply sqrt_0|right]. rewrite Rabs_pos_eq in L by exact P. rewrite Rabs_pos_eq by apply sqrt_pos. rewrite <- sqrt_bp. now apply sqrt_le_1_alt. }
  split; [|now split]. assert (L' : B2R (fsqrt x) = 0 \/ bp h <= Rabs (B2R (fsqrt x))) by (rewrite E; apply rnd_low; [lia|exact L1]).
  split; [exact F'|]. split; [destruct L' as [->|L']; [apply on_grid_0|now apply float_grid]|]. split; [exact L'|]. rewrite E. apply rnd_abs_le_bp; [lia|].
  rewrite Rabs_pos_eq by apply sqrt_pos. rewrite <- sqrt_bp. apply sqrt_le_1_alt. now rewrite Rabs_pos_eq in U.
Qed.
Lemma sc_sqrt : forall k g h v x x', (-126 <= h)%Z -> (-149 <= v <= 127)%Z -> sc (2 * k) g (2 * h) (2 * v) x x' -> 0 <= B2R x -> sc k (h - 23) h v (fsqrt x) (fsqrt x').
Proof.
  intros k g h v x x' Hh Hv (X & X' & EX) P. assert (P' : 0 <= B2R x') by (rewrite EX; apply Rmult_le_pos; [exact P|apply bpow_ge_0]).
  destruct (sized_sqrt g h v x Hh Hv X P) as (S & E & L). destruct (sized_sqrt g h v x' Hh Hv X' P') as (S' & E' & L').
  split; [exact S|]. split; [exact S'|]. apply (sc_rnd k h _ _ _ _ Hh E E' L L'). rewrite EX, sqrt_mult by (try exact P; apply bpow_ge_0). now rewrite sqrt_bp.
Qed.
(** The same number twice. *)
Lemma sc_self : forall g l u x, sized g l u x -> sc 0 g l u x x.
Proof. intros g l u x S. split; [exact S|]. split; [exact S|]. change (bp 0) with 1. ring. Qed.
(** Comparisons. *)
Lemma sc_ltb : forall k g l u g2 l2 u2 x x' y y', sc k g l u x x' -> sc k g2 l2 u2 y y' -> fltb x' y' = fltb x y.
Proof.
  intros k g l u g2 l2 u2 x x' y y' ((F & _) & (F' & _) & E) ((G & _) & (G' & _) & E2).
  rewrite !fltb_ext by (now apply is_finite_not_nan). rewrite !ext_finite by assumption. rewrite E, E2. pose proof (bpow_gt_0 radix2 k) as K.
  case (Rlt_bool_spec (B2R x) (B2R y)); intro H; [apply Rlt_bool_true|apply Rlt_bool_false]; [now apply Rmult_lt_compat_r|apply Rmult_le_compat_r; lra].
Qed.
Lemma sc_finf : forall k g l u x x', sc k g l u x x' -> fltb x finf = true /\ fltb x' finf = true /\ fltb finf x = false /\ fltb finf x' = false.
Proof. intros k g l u x x' ((F & _) & (F' & _) & _). destruct x as [s|s| |[|] m e H], x' as [s'|s'| |[|] m' e' H']; try discriminate; repeat split. Qed.
