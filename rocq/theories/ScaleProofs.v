(** Rays and scans in another unit. *)
From Coq Require Import ZArith List Bool Reals Lia Lra.
From Flocq Require Import Core BinarySingleNaN.
From Verif Require Import Base F32 FloatFacts Arith Geom RayCaster Spec SpecScale NdProofs RayProofs CastProofs RayRange ScaleFacts.
Open Scope R_scope.

Lemma usual_sized : forall x, usual x -> sized (-59) (-36) 20 x.
Proof.
  intros x (F & H). split; [exact F|]. unfold real in H. split; [|split].
  - destruct H as [->|[H _]]; [apply on_grid_0|]. change (-59)%Z with (-36 - 23)%Z. now apply float_grid.
  - destruct H as [H|[H _]]; [now left|now right].
  - destruct H as [->|[_ H]]; [rewrite Rabs_R0; apply bpow_ge_0|exact H].
Qed.
Lemma size_sized : forall r, usual_size r -> sized (-43) (-20) 20 r /\ 0 < B2R r.
Proof.
  intros r (F & H). unfold real in H. pose proof (bpow_gt_0 radix2 (-20)) as P. assert (R0 : 0 < B2R r) by lra. split; [|exact R0].
  assert (A : Rabs (B2R r) = B2R r) by (apply Rabs_pos_eq; lra). split; [exact F|]. rewrite !A. split; [|split; [right|]; lra].
  change (-43)%Z with (-20 - 23)%Z. apply float_grid. lra.
Qed.
Lemma rescaled_sc : forall k x y, rescaled k x y -> sc k (-59) (-36) 20 x y.
Proof. intros k x y (X & Y & E). split; [now apply usual_sized|]. split; [now apply usual_sized|exact E]. Qed.
Lemma rescaled_size_sc : forall k x y, rescaled_size k x y -> sc k (-43) (-20) 20 x y /\ 0 < B2R x /\ 0 < B2R y.
Proof. intros k x y (X & Y & E). destruct (size_sized _ X), (size_sized _ Y). repeat split; try assumption; try apply H; try apply H1. Qed.

Lemma sc_add2 : forall G U k g l u g2 l2 u2 x x' y y', (G <= g)%Z -> (G <= g2)%Z -> (G <= l)%Z -> (G <= l2)%Z -> (u <= U)%Z -> (u2 <= U)%Z -> (-126 <= G)%Z -> (0 <= U <= 126)%Z ->
  sc k g l u x x' -> sc k g2 l2 u2 y y' -> sc k G G (U + 1) (fadd x y) (fadd x' y').
Proof.
  intros G U k g l u g2 l2 u2 x x' y y' A1 A2 A3 A4 A5 A6 A7 A8 X Y. apply (sc_add k G G U); try assumption; [apply (sc_weaken k g l u)|apply (sc_weaken k g2 l2 u2)]; assumption.
Qed.
Lemma sc_sub2 : forall G U k g l u g2 l2 u2 x x' y y', (G <= g)%Z -> (G <= g2)%Z -> (G <= l)%Z -> (G <= l2)%Z -> (u <= U)%Z -> (u2 <= U)%Z -> (-126 <= G)%Z -> (0 <= U <= 126)%Z ->
  sc k g l u x x' -> sc k g2 l2 u2 y y' -> sc k G G (U + 1) (fsub x y) (fsub x' y').
Proof.
  intros G U k g l u g2 l2 u2 x x' y y' A1 A2 A3 A4 A5 A6 A7 A8 X Y. apply (sc_sub k G G U); try assumption; [apply (sc_weaken k g l u)|apply (sc_weaken k g2 l2 u2)]; assumption.
Qed.
Lemma sc_cap : forall k g l u v x x', sc k g l u x x' -> Rabs (B2R x) <= bp v -> Rabs (B2R x') <= bp v -> sc k g l v x x'.
Proof. intros k g l u v x x' ((F & G & L & _) & (F' & G' & L' & _) & E) U U'. repeat split; assumption. Qed.

(** ** Rounding changes a number by less than a factor of two *)
Lemma rnd_double : forall x, x = 0 \/ bp (-126) <= Rabs x -> Rabs (rnd x) <= 2 * Rabs x /\ Rabs x <= 2 * Rabs (rnd x).
Proof.
  intros x [->|H]; [rewrite rnd_0, Rabs_R0; lra|]. assert (N : x <> 0). { intros ->. rewrite Rabs_R0 in H. pose proof (bpow_gt_0 radix2 (-126)). lra. }
  pose proof (mag_ge_bpow radix2 x (-125) H) as M. destruct (mag radix2 x) as [e He]. cbn [mag_val] in M. specialize (He N). destruct He as [A B].
  assert (D : bp e = 2 * bp (e - 1)). { replace e with (1 + (e - 1))%Z at 1 by lia. rewrite bpow_plus. change (bp 1) with 2. ring. }
  pose proof (rnd_abs_le_bp x e ltac:(lia) (Rlt_le _ _ B)) as U. split; [lra|].
  assert (L : bp (e - 1) <= Rabs (rnd x)). { apply abs_round_ge_generic; auto with typeclass_instances. apply generic_format_bpow. unfold SpecFloat.fexp, SpecFloat.emin. lia. }
  lra.
Qed.

(** ** Cells *)
Lemma of_Z_sized : forall n z, (0 <= n <= 126)%Z -> IZR (Z.abs z) <= bp n -> sized 0 0 n (f32_of_Z z) /\ Rabs (B2R (f32_of_Z z)) <= 2 * IZR (Z.abs z).
Proof.
  intros n z Hn H. rewrite abs_IZR in *. pose proof (bpow_le radix2 n 127 ltac:(lia)) as B. destruct (f32_of_Z_gen z) as [F E]; [apply fin127; lra|].
  assert (G : on_grid 0 (IZR z)). { exists z. change (bp 0) with 1. ring. }
  split; [apply (sized_rnd 0 n _ (IZR z)); try assumption; lia|]. rewrite E. apply rnd_double. destruct (on_grid_low _ _ G) as [->|L]; [now left|right]. pose proof (bpow_le radix2 (-126) 0 ltac:(lia)). lra.
Qed.
Lemma cell_scaled : forall k p p' b b' r r', sc k (-59) (-36) 20 p p' -> sc k (-59) (-36) 20 b b' -> sc k (-43) (-20) 20 r r' -> 0 < B2R r ->
  cell_coord_from_point_coord F32A p' b' r' = cell_coord_from_point_coord F32A p b r.
Proof.
  intros k p p' b b' r r' P B R R0. unfold cell_coord_from_point_coord. cbn [t_to_isize tround tdiv tsub F32A].
  pose proof (sc_sub2 (-59) 20 k (-59) (-36) 20 (-59) (-36) 20 _ _ _ _ ltac:(lia) ltac:(lia) ltac:(lia) ltac:(lia) ltac:(lia) ltac:(lia) ltac:(lia) ltac:(lia) P B) as S.
  pose proof (sc_div k (-59) (-59) 21 k (-43) (-20) 20 _ _ _ _ ltac:(lia) ltac:(lia) S R ltac:(lra)) as ((F & _) & (F' & _) & E).
  rewrite !round_to_isize by (now apply is_finite_not_nan). rewrite !ext_finite by assumption. rewrite E. replace (k - k)%Z with 0%Z by lia. change (bp 0) with 1. now rewrite Rmult_1_r.
Qed.
Lemma nearest_double : forall q, IZR (Z.abs (ZnearestA q)) <= 2 * Rabs q.
Proof.
  intro q. rewrite abs_IZR. assert (H : Rabs (q - IZR (ZnearestA q)) <= / 2) by apply Znearest_half. destruct (Rlt_or_le (Rabs q) (/ 2)) as [L|L].
  - replace (ZnearestA q) with 0%Z; [rewrite Rabs_R0; pose proof (Rabs_pos q); lra|]. symmetry. apply Znearest_imp. rewrite Rminus_0_r. exact L.
  - pose proof (Rabs_triang_inv (IZR (ZnearestA q)) q) as T. rewrite Rabs_minus_sym in H. lra.
Qed.
Lemma cell_small : forall p b r, sized (-59) (-36) 20 p -> sized (-59) (-36) 20 b -> sized (-43) (-20) 20 r -> 0 < B2R r ->
  IZR (Z.abs (cell_coord_from_point_coord F32A p b r)) * B2R r <= bp 23.
Proof.
  intros p b r P B R R0. unfold cell_coord_from_point_coord. cbn [t_to_isize tround tdiv tsub F32A].
  destruct (sized_sub (-59) (-36) 20 p b ltac:(lia) ltac:(lia) P B) as (S & _ & _).
  destruct (sized_div (-59) (-59) 21 (-43) (-20) 20 _ _ ltac:(lia) ltac:(lia) S R ltac:(lra)) as ((F & _) & E & L).
  rewrite round_to_isize by (now apply is_finite_not_nan). rewrite ext_finite by assumption. set (q := B2R (fdiv _ r)) in *.
  assert (Q : Rabs q * B2R r <= 2 * bp 21).
  { rewrite E. assert (D := proj1 (rnd_double (B2R (fsub p b) / B2R r) ltac:(destruct L as [L|L]; [now left|right; pose proof (bpow_le radix2 (-126) (-59 - 20) ltac:(lia)); lra]))).
    assert (X : Rabs (B2R (fsub p b) / B2R r) * B2R r = Rabs (B2R (fsub p b))). { unfold Rdiv. rewrite Rabs_mult, Rabs_inv, (Rabs_pos_eq (B2R r)) by lra. field. lra. }
    destruct S as (_ & _ & _ & U). change (20 + 1)%Z with 21%Z in U. apply Rle_trans with (2 * Rabs (B2R (fsub p b) / B2R r) * B2R r); [apply Rmult_le_compat_r; lra|]. rewrite Rmult_assoc, X. lra. }
  assert (Z1 : IZR (Z.abs (sat (ZnearestA q))) <= IZR (Z.abs (ZnearestA q))). { apply IZR_le. unfold sat, isize_min, isize_max. lia. }
  pose proof (nearest_double q) as N. replace (bp 23) with (4 * bp 21) by (change 23%Z with (2 + 21)%Z; rewrite bpow_plus; reflexivity).
  apply Rle_trans with (2 * Rabs q * B2R r); [apply Rmult_le_compat_r; lra|]. lra.
Qed.
(** A multiple of the cell size. *)
Lemma coord_scaled : forall n k z b b' r r', (24 <= n <= 80)%Z -> sc k (-59) (-36) 20 b b' -> sc k (-43) (-20) 20 r r' -> 0 < B2R r -> 0 < B2R r' ->
  IZR (Z.abs z) * B2R r <= bp (n - 1) -> IZR (Z.abs z) * B2R r' <= bp (n - 1) ->
  sc k (-59) (-59) (n + 1) (point_coord_from_cell_coord F32A z b r) (point_coord_from_cell_coord F32A z b' r').
Proof.
  intros n k z b b' r r' Hn B R R0 R0' H H'. unfold point_coord_from_cell_coord. cbn [tadd tmul t_of_isize F32A].
  assert (Zs : IZR (Z.abs z) <= bp (n + 19)).
  { destruct R as ((_ & _ & L & _) & _ & _). destruct L as [L|L]; [lra|]. rewrite Rabs_pos_eq in L by lra. apply Rmult_le_reg_r with (bp (-20)); [apply bpow_gt_0|].
    rewrite <- bpow_plus. replace (n + 19 + -20)%Z with (n - 1)%Z by lia. apply Rle_trans with (2 := H). apply Rmult_le_compat_l; [apply IZR_le; lia|exact L]. }
  destruct (of_Z_sized (n + 19) z ltac:(lia) Zs) as [S D].
  assert (M : forall q, sized (-43) (-20) 20 q -> 0 < B2R q -> IZR (Z.abs z) * B2R q <= bp (n - 1) -> Rabs (B2R (fmul (f32_of_Z z) q)) <= bp n).
  { intros q Sq Q0 Hq. destruct (sized_mul 0 0 (n + 19) (-43) (-20) 20 (f32_of_Z z) q ltac:(lia) ltac:(lia) ltac:(lia) S Sq) as (_ & E & _). rewrite E. apply rnd_abs_le_bp; [lia|].
    rewrite Rabs_mult, (Rabs_pos_eq (B2R q)) by lra. replace n with (1 + (n - 1))%Z by lia. rewrite bpow_plus. change (bp 1) with 2.
    apply Rle_trans with (2 * IZR (Z.abs z) * B2R q); [apply Rmult_le_compat_r; lra|lra]. }
  pose proof (sc_mul 0 0 0 (n + 19) k (-43) (-20) 20 _ _ r r' ltac:(lia) ltac:(lia) ltac:(lia) (sc_self _ _ _ _ S) R) as P. cbn [Z.add] in P.
  apply (sc_cap _ _ _ _ n) in P; [|apply M; try assumption; apply R|apply M; try assumption; apply R].
  apply (sc_add2 (-59) n k (-43) (-20) n (-59) (-36) 20 _ _ _ _ ltac:(lia) ltac:(lia) ltac:(lia) ltac:(lia) ltac:(lia) ltac:(lia) ltac:(lia) ltac:(lia) P B).
Qed.

(** ** Lengths *)
Lemma add_ge : forall x y, sized (-118) (-118) 126 x -> sized (-118) (-118) 126 y -> 0 <= B2R x -> 0 <= B2R y ->
  B2R x <= B2R (fadd x y) /\ B2R y <= B2R (fadd x y).
Proof.
  intros x y X Y X0 Y0. destruct (sized_add (-118) (-118) 126 x y ltac:(lia) ltac:(lia) X Y) as (_ & E & _). rewrite E.
  split; [rewrite <- (round_generic radix2 fexp32 ZnearestE (B2R x)) at 1|rewrite <- (round_generic radix2 fexp32 ZnearestE (B2R y)) at 1]; try apply generic_format_B2R; apply rnd_le; lra.
Qed.
Lemma square_ge : forall u x, (0 <= u <= 62)%Z -> sized (-59) (-59) u x -> 0 <= B2R (fmul x x) /\ B2R x * B2R x <= 2 * B2R (fmul x x).
Proof.
  intros u x Hu X. destruct (sized_mul (-59) (-59) u (-59) (-59) u x x ltac:(lia) ltac:(lia) ltac:(lia) X X) as (_ & E & L). rewrite E.
  assert (P : 0 <= B2R x * B2R x) by nra. assert (P' : 0 <= rnd (B2R x * B2R x)) by (rewrite <- rnd_0; now apply rnd_le). split; [exact P'|].
  destruct (rnd_double (B2R x * B2R x)) as [_ D]; [destruct L as [L|L]; [now left|right; pose proof (bpow_le radix2 (-126) (-59 + -59) ltac:(lia)); lra]|]. now rewrite !Rabs_pos_eq in D by assumption.
Qed.
Lemma f0_sized : forall g l u, sized g l u f0.
Proof. intros g l u. split; [reflexivity|]. change (B2R f0) with 0. split; [apply on_grid_0|]. split; [now left|]. rewrite Rabs_R0. apply bpow_ge_0. Qed.
Lemma sized_f0 : forall g l u k, sc k g l u f0 f0.
Proof. intros g l u k. split; [apply f0_sized|]. split; [apply f0_sized|]. change (B2R f0) with 0. ring. Qed.
Lemma norm2_scaled : forall k u v v', (0 <= u <= 62)%Z -> (length v = 2 \/ length v = 3)%nat -> Forall2 (sc k (-59) (-59) u) v v' ->
  sc (k + k) (-118) (-118) (u + u + 3) (norm_squared F32A v) (norm_squared F32A v') /\ 0 <= B2R (norm_squared F32A v) /\ Forall (fun x => B2R x * B2R x <= 2 * B2R (norm_squared F32A v)) v.
Proof.
  intros k u v v' Hu Lv H.
  assert (M : forall x x', sc k (-59) (-59) u x x' -> sc (k + k) (-118) (-118) (u + u) (fmul x x) (fmul x' x')).
  { intros x x' X. exact (sc_mul k (-59) (-59) u k (-59) (-59) u x x' x x' ltac:(lia) ltac:(lia) ltac:(lia) X X). }
  assert (W : forall w x x', (w <= 126)%Z -> sc (k + k) (-118) (-118) w x x' -> sized (-118) (-118) 126 x).
  { intros w x x' Hw (X & _). revert X. apply sized_weaken; lia. }
  destruct H as [|x0 x0' v v' H0 H]; [destruct Lv; discriminate|]. destruct H as [|x1 x1' v v' H1 H]; [destruct Lv; discriminate|].
  pose proof (M _ _ H0) as M0. pose proof (M _ _ H1) as M1. destruct (square_ge u x0 Hu (proj1 H0)) as [P0 Q0]. destruct (square_ge u x1 Hu (proj1 H1)) as [P1 Q1].
  pose proof (sc_add2 (-118) (u + u) (k + k) (-118) (-118) (u + u) (-118) (-118) (u + u) _ _ _ _ ltac:(lia) ltac:(lia) ltac:(lia) ltac:(lia) ltac:(lia) ltac:(lia) ltac:(lia) ltac:(lia) M0 M1) as A.
  destruct (add_ge _ _ (W (u + u)%Z _ _ ltac:(lia) M0) (W (u + u)%Z _ _ ltac:(lia) M1) P0 P1) as [A0 A1].
  unfold norm_squared, dot_self. cbn [map fold_left tadd tmul tzero F32A].
  destruct H as [|x2 x2' v v' H2 H].
  - cbn [fold_left].
    pose proof (sc_add2 (-118) (u + u + 1) (k + k) (-118) (-118) 0 (-118) (-118) (u + u + 1) _ _ _ _ ltac:(lia) ltac:(lia) ltac:(lia) ltac:(lia) ltac:(lia) ltac:(lia) ltac:(lia) ltac:(lia) (sized_f0 _ _ _ _) A) as B.
    destruct (add_ge _ _ (f0_sized (-118) (-118) 126) (W (u + u + 1)%Z _ _ ltac:(lia) A) (Rle_refl 0) ltac:(lra)) as [B0 B1]. change (B2R f0) with 0 in B0.
    split; [revert B; apply sc_weaken; lia|]. split; [exact B0|]. cbn [map fold_left]. repeat (apply Forall_cons; [lra|]). apply Forall_nil.
  - destruct H; [|destruct Lv; discriminate]. cbn [fold_left]. pose proof (M _ _ H2) as M2. destruct (square_ge u x2 Hu (proj1 H2)) as [P2 Q2].
    pose proof (sc_add2 (-118) (u + u + 1) (k + k) (-118) (-118) (u + u + 1) (-118) (-118) (u + u) _ _ _ _ ltac:(lia) ltac:(lia) ltac:(lia) ltac:(lia) ltac:(lia) ltac:(lia) ltac:(lia) ltac:(lia) A M2) as C.
    destruct (add_ge _ _ (W (u + u + 1)%Z _ _ ltac:(lia) A) (W (u + u)%Z _ _ ltac:(lia) M2) ltac:(lra) P2) as [C0 C1].
    pose proof (sc_add2 (-118) (u + u + 1 + 1) (k + k) (-118) (-118) 0 (-118) (-118) (u + u + 1 + 1) _ _ _ _ ltac:(lia) ltac:(lia) ltac:(lia) ltac:(lia) ltac:(lia) ltac:(lia) ltac:(lia) ltac:(lia) (sized_f0 _ _ _ _) C) as B.
    destruct (add_ge _ _ (f0_sized (-118) (-118) 126) (W (u + u + 1 + 1)%Z _ _ ltac:(lia) C) (Rle_refl 0) ltac:(lra)) as [B0 B1]. change (B2R f0) with 0 in B0.
    split; [revert B; apply sc_weaken; lia|]. split; [exact B0|]. cbn [map fold_left]. repeat (apply Forall_cons; [lra|]). apply Forall_nil.
Qed.

(** ** Directions *)
Notation coordinate k := (sc k (-59) (-36) 20).
Lemma vsub_scaled : forall k G U e e' o o', (G <= -59)%Z -> (-126 <= G)%Z -> (20 <= U <= 126)%Z -> Forall2 (sc k G G U) e e' -> Forall2 (coordinate k) o o' ->
  Forall2 (sc k G G (U + 1)) (vsub F32A e o) (vsub F32A e' o').
Proof.
  intros k G U e e' o o' HG HG' HU H. revert o o'. induction H as [|x x' e e' Hx _ IH]; intros o o' K; [constructor|]. destruct K as [|y y' o o' Hy K]; [constructor|].
  constructor; [|now apply IH]. apply (sc_sub2 G U k G G U (-59) (-36) 20); try assumption; lia.
Qed.
Lemma self_all : forall g l u v, Forall (sized g l u) v -> Forall2 (sc 0 g l u) v v.
Proof. intros g l u v H. induction H; constructor; [now apply sc_self|assumption]. Qed.
Lemma left_all : forall k g l u v v', Forall2 (sc k g l u) v v' -> Forall (sized g l u) v.
Proof. intros k g l u v v' H. induction H as [|x x' v v' (X & _) _ IH]; now constructor. Qed.
Lemma right_all : forall k g l u v v', Forall2 (sc k g l u) v v' -> Forall (sized g l u) v'.
Proof. intros k g l u v v' H. induction H as [|x x' v v' (_ & X & _) _ IH]; now constructor. Qed.
Lemma norm_ge : forall v, (length v = 2 \/ length v = 3)%nat -> Forall (sized (-59) (-59) 21) v -> Forall (fun x => Rabs (B2R x) <= 4 * B2R (norm F32A v)) v.
Proof.
  intros v Lv H. destruct (norm2_scaled 0 21 v v ltac:(lia) Lv (self_all _ _ _ _ H)) as (S & P & A). unfold norm. cbn [tsqrt F32A]. set (s := norm_squared F32A v) in *.
  destruct (sized_sqrt (-118) (-59) 23 s ltac:(lia) ltac:(lia) ltac:(destruct S as (S & _); revert S; apply sized_weaken; lia) P) as (_ & E & L).
  destruct (rnd_double (sqrt (B2R s))) as [_ D]; [destruct L as [L|L]; [now left|right; pose proof (bpow_le radix2 (-126) (-59) ltac:(lia)); lra]|].
  assert (N0 : 0 <= rnd (sqrt (B2R s))) by (rewrite <- rnd_0; apply rnd_le, sqrt_pos). rewrite (Rabs_pos_eq (sqrt _)), (Rabs_pos_eq (rnd _)) in D by (assumption || apply sqrt_pos). rewrite <- E in *.
  pose proof (sqrt_sqrt _ P) as SS. pose proof (sqrt_pos (B2R s)) as S0. revert A. apply Forall_impl. intros x Hx. apply Rsqr_incr_0_var; [|lra]. rewrite <- Rsqr_abs. unfold Rsqr. nra.
Qed.
Lemma norm_scaled : forall k v v', (length v = 2 \/ length v = 3)%nat -> Forall2 (sc k (-59) (-59) 21) v v' -> sc k (-82) (-59) 23 (norm F32A v) (norm F32A v').
Proof.
  intros k v v' Lv H. destruct (norm2_scaled k 21 v v' ltac:(lia) Lv H) as (S & P & _). unfold norm. cbn [tsqrt F32A].
  apply (sc_sqrt k (-118) (-59) 23); try lia; [|exact P]. replace (2 * k)%Z with (k + k)%Z by lia. revert S. apply sc_weaken; lia.
Qed.
Notation heading := (sc 0 (-105) (-82) 2).
Lemma dir_scaled : forall k v v', (length v = 2 \/ length v = 3)%nat -> Forall2 (sc k (-59) (-59) 21) v v' -> B2R (norm F32A v) <> 0 ->
  Forall2 heading (vdivs F32A v (norm F32A v)) (vdivs F32A v' (norm F32A v')).
Proof.
  intros k v v' Lv H N. pose proof (norm_scaled k v v' Lv H) as S. pose proof (sc_nonzero _ _ _ _ _ _ S N) as N'.
  pose proof (norm_ge v Lv (left_all _ _ _ _ _ _ H)) as A. pose proof (norm_ge v' ltac:(rewrite <- (Forall2_length _ _ _ H); exact Lv) (right_all _ _ _ _ _ _ H)) as A'.
  set (n := norm F32A v) in *. set (n' := norm F32A v') in *. clearbody n n'. clear Lv.
  assert (Q : forall x m, sized (-59) (-59) 21 x -> sized (-82) (-59) 23 m -> B2R m <> 0 -> Rabs (B2R x) <= 4 * B2R m -> Rabs (B2R (fdiv x m)) <= bp 2).
  { intros x m X M M0 B. destruct (sized_div (-59) (-59) 21 (-82) (-59) 23 x m ltac:(lia) ltac:(lia) X M M0) as (_ & E & _). rewrite E. apply rnd_abs_le_bp; [lia|].
    assert (MP : 0 < B2R m) by (pose proof (Rabs_pos (B2R x)); lra). unfold Rdiv. rewrite Rabs_mult, Rabs_inv, (Rabs_pos_eq (B2R m)) by lra.
    apply Rmult_le_reg_r with (B2R m); [exact MP|]. rewrite Rmult_assoc, Rinv_l, Rmult_1_r by lra. exact B. }
  unfold vdivs. cbn [tdiv F32A]. induction H as [|x x' v v' Hx H IH]; [constructor|]. inversion A; subst. inversion A'; subst. cbn [map]. constructor; [|now apply IH].
  pose proof (sc_div k (-59) (-59) 21 k (-82) (-59) 23 x x' n n' ltac:(lia) ltac:(lia) Hx S N) as D. replace (k - k)%Z with 0%Z in D by lia.
  apply (sc_cap _ _ _ _ 2) in D; [exact D|apply Q|apply Q]; try assumption; try apply Hx; apply S.
Qed.
Lemma signum_scaled : forall d d', heading d d' -> f32_signum d' = f32_signum d.
Proof.
  intros d d' H. unfold f32_signum, signum1. cbn [teqb tltb tzero tone tmone F32A]. rewrite (sc_ltb 0 0 0 0 _ _ _ f0 f0 _ _ (sized_f0 _ _ _ _) H).
  destruct H as ((F & _) & (F' & _) & E). rewrite !feqb_ext by (now apply is_finite_not_nan). rewrite !ext_finite by (assumption || reflexivity). change (bp 0) with 1 in E. now rewrite E, Rmult_1_r.
Qed.
Lemma signums_scaled : forall v v', Forall2 heading v v' -> signum F32A v' = signum F32A v.
Proof. intros v v' H. unfold signum. induction H as [|x x' v v' Hx _ IH]; [reflexivity|]. cbn [map]. f_equal; [exact (signum_scaled x x' Hx)|exact IH]. Qed.

(** ** Crossings *)
Definition crossing_rel (k : Z) (t t' : f32) : Prop := (t = finf /\ t' = finf) \/ sc k (-84) (-84) 126 t t'.
Definition spacing_rel (k : Z) (t t' : f32) : Prop := (t = finf /\ t' = finf) \/ sc k (-84) (-84) 102 t t'.
Lemma moving : forall d d', heading d d' -> feqb (f32_signum d) f0 = false -> B2R d <> 0.
Proof.
  intros d d' ((F & _) & _) E Z0. unfold f32_signum, signum1 in E. cbn [teqb tltb tzero tone tmone F32A] in E. destruct (feqb d f0) eqn:Q; [discriminate E|].
  rewrite feqb_ext in Q by (try reflexivity; now apply is_finite_not_nan). rewrite !ext_finite in Q by (assumption || reflexivity). rewrite Z0 in Q. change (B2R f0) with 0 in Q. rewrite Req_bool_true in Q by reflexivity. discriminate Q.
Qed.
Lemma abs_scaled : forall k g l u x x', sc k g l u x x' -> sc k g l u (fabs x) (fabs x').
Proof.
  assert (A : forall g l u x, sized g l u x -> sized g l u (fabs x)).
  { intros g l u x (F & G & L & U). unfold sized, fabs. rewrite is_finite_Babs, B2R_Babs, Rabs_Rabsolu. split; [exact F|]. split; [|split; [|exact U]].
    - unfold Rabs. destruct (Rcase_abs _); [now apply on_grid_opp|exact G].
    - destruct L as [->|L]; [left; apply Rabs_R0|now right]. }
  intros k g l u x x' (X & X' & E). split; [now apply A|]. split; [now apply A|]. unfold fabs. rewrite !B2R_Babs, E, Rabs_mult, (Rabs_pos_eq (bp k)) by apply bpow_ge_0. reflexivity.
Qed.
Lemma step_sized : forall d, feqb (f32_signum d) f0 = false -> sized 0 0 0 (f32_signum d).
Proof.
  assert (O : forall z, Z.abs z = 1%Z -> sized 0 0 0 (f32_of_Z z)).
  { intros z Hz. destruct (of_Z_sized 0 z ltac:(lia)) as [S _]; [rewrite Hz; change (bp 0) with 1; lra|exact S]. }
  intros d E. unfold f32_signum, signum1 in *. cbn [teqb tltb tzero tone tmone F32A] in *. destruct (feqb d f0); [discriminate E|].
  destruct (fltb f0 d); [exact (O 1%Z eq_refl)|exact (O (-1)%Z eq_refl)].
Qed.
Lemma half_sized : sized (-1) (-1) (-1) fhalf.
Proof.
  assert (E : B2R fhalf = / 2). { unfold B2R, fhalf; cbn. unfold F2R. cbn. try (change (bp (-24)) with (/ 16777216)); lra. }
  assert (B : bp (-1) = / 2) by reflexivity. split; [reflexivity|]. rewrite E, B, Rabs_pos_eq by lra. split; [exists 1%Z; rewrite B; lra|]. split; [right|]; lra.
Qed.
Lemma t_delta_scaled : forall k d d' r r', heading d d' -> sc k (-43) (-20) 20 r r' ->
  spacing_rel k (axis_t_delta F32A (f32_signum d) d r) (axis_t_delta F32A (f32_signum d') d' r').
Proof.
  intros k d d' r r' H R. rewrite (signum_scaled _ _ H). unfold axis_t_delta. cbn [teqb tzero tinf tdiv tabs F32A]. destruct (feqb (f32_signum d) f0) eqn:E; [now left|right].
  pose proof (moving _ _ H E) as N. assert (NA : B2R (fabs d) <> 0) by (unfold fabs; rewrite B2R_Babs; now apply Rabs_no_R0).
  pose proof (sc_div k (-43) (-20) 20 0 (-105) (-82) 2 r r' _ _ ltac:(lia) ltac:(lia) R (abs_scaled _ _ _ _ _ _ H) NA) as D. rewrite Z.sub_0_r in D. revert D. apply sc_weaken; lia.
Qed.
Lemma t_max_scaled : forall k d d' o o' b b' r r' c, heading d d' -> coordinate k o o' -> coordinate k b b' -> sc k (-43) (-20) 20 r r' -> 0 < B2R r -> 0 < B2R r' ->
  IZR (Z.abs c) * B2R r <= bp 23 -> IZR (Z.abs c) * B2R r' <= bp 23 ->
  crossing_rel k (axis_t_max F32A (f32_signum d) b o d r c) (axis_t_max F32A (f32_signum d') b' o' d' r' c).
Proof.
  intros k d d' o o' b b' r r' c H O B R R0 R0' C C'. rewrite (signum_scaled _ _ H). unfold axis_t_max. cbn [teqb tzero tinf tdiv tsub tadd tmul thalf F32A]. destruct (feqb (f32_signum d) f0) eqn:E; [now left|right].
  pose proof (moving _ _ H E) as N. pose proof (coord_scaled 24 k c b b' r r' ltac:(lia) B R R0 R0' C C') as P.
  pose proof (sc_mul 0 0 0 0 k (-43) (-20) 20 _ _ r r' ltac:(lia) ltac:(lia) ltac:(lia) (sc_self _ _ _ _ (step_sized d E)) R) as S1.
  pose proof (sc_mul (0 + k) (0 + -43) (0 + -20) (0 + 20) 0 (-1) (-1) (-1) _ _ _ _ ltac:(lia) ltac:(lia) ltac:(lia) S1 (sc_self _ _ _ _ half_sized)) as S2.
  replace (0 + k + 0)%Z with k in S2 by lia.
  pose proof (sc_add2 (-59) 25 k (-59) (-59) (24 + 1) (0 + -43 + -1) (0 + -20 + -1) (0 + 20 + -1) _ _ _ _ ltac:(lia) ltac:(lia) ltac:(lia) ltac:(lia) ltac:(lia) ltac:(lia) ltac:(lia) ltac:(lia) P S2) as Q.
  pose proof (sc_sub2 (-59) 26 k (-59) (-59) (25 + 1) (-59) (-36) 20 _ _ _ _ ltac:(lia) ltac:(lia) ltac:(lia) ltac:(lia) ltac:(lia) ltac:(lia) ltac:(lia) ltac:(lia) Q O) as W.
  pose proof (sc_div k (-59) (-59) (26 + 1) 0 (-105) (-82) 2 _ _ d d' ltac:(lia) ltac:(lia) W H N) as D. rewrite Z.sub_0_r in D. revert D. apply sc_weaken; lia.
Qed.
Lemma stuck : rnd (bp 126 + bp 102) = bp 126.
Proof.
  set (a := @B754_finite 24 128 false 8388608 103 eq_refl). set (b := @B754_finite 24 128 false 8388608 79 eq_refl).
  assert (A : B2R a = bp 126). { unfold a, B2R, F2R. cbn [Fnum Fexp cond_Zopp]. change (IZR 8388608) with (bp 23). rewrite <- bpow_plus. reflexivity. }
  assert (B : B2R b = bp 102). { unfold b, B2R, F2R. cbn [Fnum Fexp cond_Zopp]. change (IZR 8388608) with (bp 23). rewrite <- bpow_plus. reflexivity. }
  destruct (fadd_fin a b eq_refl eq_refl) as [_ E].
  - apply fin127. rewrite A, B. rewrite Rabs_pos_eq by (pose proof (bpow_gt_0 radix2 126); pose proof (bpow_gt_0 radix2 102); lra).
    change 127%Z with (1 + 126)%Z. rewrite bpow_plus. change (bp 1) with 2. pose proof (bpow_le radix2 102 126 ltac:(lia)). lra.
  - rewrite A, B in E. rewrite <- E, <- A. f_equal. apply B2SF_inj. vm_compute. reflexivity.
Qed.
Lemma crossing_next : forall k t t' s s', crossing_rel k t t' -> spacing_rel k s s' -> crossing_rel k (fadd t s) (fadd t' s').
Proof.
  intros k t t' s s' [[-> ->]|T] [[-> ->]|S].
  - now left.
  - left. destruct S as ((F & _) & (F' & _) & _). destruct s, s'; try discriminate; now split.
  - left. destruct T as ((F & _) & (F' & _) & _). destruct t, t'; try discriminate; now split.
  - right. pose proof (sc_add2 (-84) 126 k (-84) (-84) 126 (-84) (-84) 102 t t' s s' ltac:(lia) ltac:(lia) ltac:(lia) ltac:(lia) ltac:(lia) ltac:(lia) ltac:(lia) ltac:(lia) T S) as A.
    assert (U : forall x y, sized (-84) (-84) 126 x -> sized (-84) (-84) 102 y -> Rabs (B2R (fadd x y)) <= bp 126).
    { intros x y X Y. destruct (sized_add (-84) (-84) 126 x y ltac:(lia) ltac:(lia) X ltac:(revert Y; apply sized_weaken; lia)) as (_ & E & _). rewrite E.
      destruct X as (_ & _ & _ & UX), Y as (_ & _ & _ & UY). pose proof (Rabs_triang (B2R x) (B2R y)) as TR. apply Rabs_le. rewrite <- stuck.
      assert (AB : Rabs (B2R x + B2R y) <= bp 126 + bp 102) by lra. apply Rabs_le_inv in AB. split; [rewrite <- round_NE_opp|]; apply rnd_le; lra. }
    apply (sc_cap _ _ _ _ 126) in A; [exact A|apply U|apply U]; [apply T|apply S|apply T|apply S].
Qed.

(** ** Rays *)
Lemma Forall2_nth_rel : forall {A} (R : A -> A -> Prop) d, R d d -> forall l l', Forall2 R l l' -> forall i, R (nth i l d) (nth i l' d).
Proof. intros A R d D l l' H. induction H as [|x x' l l' Hx _ IH]; intros [|i]; cbn [nth]; auto. Qed.
Lemma Forall2_upd_rel : forall {A} (R : A -> A -> Prop) l l' k x x', Forall2 R l l' -> R x x' -> Forall2 R (upd l k x) (upd l' k x').
Proof. intros A R l l' k x x' H X. revert k. induction H as [|y y' l l' Hy H IH]; intros [|k]; cbn [upd]; constructor; auto. Qed.
Lemma crossing_ltb : forall k x x' y y', crossing_rel k x x' -> crossing_rel k y y' -> fltb x' y' = fltb x y.
Proof.
  intros k x x' y y' [[-> ->]|X] [[-> ->]|Y].
  - reflexivity.
  - destruct (sc_finf _ _ _ _ _ _ Y) as (_ & _ & -> & ->). reflexivity.
  - destruct (sc_finf _ _ _ _ _ _ X) as (-> & -> & _). reflexivity.
  - exact (sc_ltb _ _ _ _ _ _ _ _ _ _ _ X Y).
Qed.
Lemma select_scaled : forall k t t', Forall2 (crossing_rel k) t t' -> select_dim F32A t' = select_dim F32A t.
Proof.
  intros k t t' H. pose proof (Forall2_nth_rel (crossing_rel k) finf ltac:(now left) _ _ H) as N. unfold select_dim. change (T F32A) with f32. rewrite <- (Forall2_length _ _ _ H). cbn [tltb tinf F32A].
  rewrite (crossing_ltb k _ _ _ _ (N 0%nat) (N 1%nat)), (crossing_ltb k _ _ _ _ (N 0%nat) (N 2%nat)), (crossing_ltb k _ _ _ _ (N 1%nat) (N 2%nat)). reflexivity.
Qed.
(** A cell at most [n] steps from one within the usual coordinates. *)
Definition near_cell (n : Z) (r : f32) (z : Z) : Prop := IZR (Z.abs z) * B2R r <= bp 23 + IZR n * bp 20.
Lemma near_mono : forall n m r z, (n <= m)%Z -> near_cell n r z -> near_cell m r z.
Proof. intros n m r z L H. unfold near_cell in *. apply IZR_le in L. pose proof (bpow_gt_0 radix2 20). nra. Qed.
Lemma near_step : forall n r z s, (0 <= n)%Z -> 0 < B2R r <= bp 20 -> near_cell n r z -> (-1 <= s <= 1)%Z -> near_cell (n + 1) r (z + s).
Proof.
  intros n r z s Hn R0 H Hs. unfold near_cell in *. assert (A : IZR (Z.abs (z + s)) <= IZR (Z.abs z) + 1) by (rewrite <- plus_IZR; apply IZR_le; lia). rewrite plus_IZR. nra.
Qed.
Lemma near_bound : forall n r z, (0 <= n <= 2 ^ 38)%Z -> near_cell n r z -> IZR (Z.abs z) * B2R r <= bp (60 - 1).
Proof.
  intros n r z Hn H. unfold near_cell in H. assert (N : IZR n <= bp 38) by (change (bp 38) with (IZR (2 ^ 38)); now apply IZR_le). assert (P : IZR n * bp 20 <= bp 58).
  { change 58%Z with (38 + 20)%Z. rewrite bpow_plus. apply Rmult_le_compat_r; [apply bpow_ge_0|exact N]. }
  change (60 - 1)%Z with (1 + 58)%Z. rewrite bpow_plus. change (bp 1) with 2. pose proof (bpow_le radix2 23 58 ltac:(lia)). lra.
Qed.
Lemma points_scaled : forall n k c b b' r r', (0 <= n <= 2 ^ 38)%Z -> Forall2 (coordinate k) b b' -> sc k (-43) (-20) 20 r r' -> 0 < B2R r -> 0 < B2R r' -> Forall (near_cell n r) c -> Forall (near_cell n r') c ->
  Forall2 (sc k (-59) (-59) 61) (point_from_cell F32A c b r) (point_from_cell F32A c b' r').
Proof.
  intros n k c b b' r r' Hn B R R0 R0' H H'. revert b b' B. unfold point_from_cell. induction c as [|z c IH]; intros b b' B; [constructor|]. inversion H; subst. inversion H'; subst.
  destruct B as [|y y' b b' Hy B]; [constructor|]. cbn [map2]. constructor; [|now apply IH].
  apply (coord_scaled 60 k); try assumption; [lia|now apply (near_bound n)|now apply (near_bound n)].
Qed.
Lemma far_scaled : forall n k c (o o' b b' : point) r r' m m' ec st td td', (0 <= n <= 2 ^ 38)%Z -> (length c = 2 \/ length c = 3)%nat -> length o = length c -> length b = length c ->
  Forall2 (coordinate k) b b' -> Forall2 (coordinate k) o o' -> sc k (-43) (-20) 20 r r' -> 0 < B2R r -> 0 < B2R r' -> coordinate k m m' ->
  Forall (near_cell n r) c -> Forall (near_cell n r') c ->
  too_far F32A (mkEnv F32A o' b' r' m' ec st td') c = too_far F32A (mkEnv F32A o b r m ec st td) c.
Proof.
  intros n k c o o' b b' r r' m m' ec st td td' Hn Lc Lo Lb B O R R0 R0' M H H'. unfold too_far. cbn [re_max_len re_bmin re_resolution re_origin tltb tzero tmul F32A].
  rewrite (sc_ltb k 0 0 0 _ _ _ f0 f0 _ _ (sized_f0 _ _ _ _) M). destruct (fltb f0 m); [|reflexivity].
  pose proof (vsub_scaled k (-59) 61 _ _ _ _ ltac:(lia) ltac:(lia) ltac:(lia) (points_scaled n k c b b' r r' Hn B R R0 R0' H H') O) as V.
  assert (LV : (length (vsub F32A (point_from_cell F32A c b r) o) = 2 \/ length (vsub F32A (point_from_cell F32A c b r) o) = 3)%nat).
  { unfold vsub, point_from_cell. destruct Lc as [L|L]; [left|right]; (apply map2_len; [apply map2_len; [exact L|exact (eq_trans Lb L)]|exact (eq_trans Lo L)]). }
  destruct (norm2_scaled k 62 _ _ ltac:(lia) LV V) as (S & _ & _).
  pose proof (sc_mul k (-59) (-36) 20 k (-59) (-36) 20 m m' m m' ltac:(lia) ltac:(lia) ltac:(lia) M M) as MM. exact (sc_ltb _ _ _ _ _ _ _ _ _ _ _ MM S).
Qed.
Lemma upd_len : forall {A} (c : list A) k x, length (upd c k x) = length c.
Proof. induction c as [|y c IH]; intros [|k] x; cbn [upd length]; auto. Qed.
Lemma near_upd : forall n r c k x, (0 <= n)%Z -> Forall (near_cell n r) c -> near_cell (n + 1) r x -> Forall (near_cell (n + 1) r) (upd c k x).
Proof.
  intros n r c k x Hn H X. revert k. induction H as [|y c Hy H IH]; intros [|k]; cbn [upd]; constructor; auto; try (now apply (near_mono n); [lia|]). revert H. apply Forall_impl. intros z. apply near_mono. lia.
Qed.
Lemma signum_small : forall v k, (-1 <= f32_to_isize (nth k (signum F32A v) f0) <= 1)%Z.
Proof.
  intro v. unfold signum. induction v as [|x v IH]; intros [|k]; cbn [map nth]; try (change (f32_to_isize f0) with 0%Z; lia); [|apply IH].
  unfold signum1. cbn [teqb tltb tzero tone tmone F32A]. change (f32_to_isize f0) with 0%Z.
  destruct (feqb x f0); [change (f32_to_isize f0) with 0%Z; lia|]. destruct (fltb f0 x); [change (f32_to_isize f1) with 1%Z|change (f32_to_isize fm1) with (-1)%Z]; lia.
Qed.
Lemma loop_scaled : forall fuel n k (o o' b b' : point) r r' m m' ec v td td' cur tm tm' acc,
  (0 <= n)%Z -> (n + Z.of_nat fuel <= 2 ^ 38)%Z -> (length cur = 2 \/ length cur = 3)%nat -> length o = length cur -> length b = length cur ->
  Forall2 (coordinate k) b b' -> Forall2 (coordinate k) o o' -> sc k (-43) (-20) 20 r r' -> 0 < B2R r -> 0 < B2R r' -> coordinate k m m' ->
  Forall2 (spacing_rel k) td td' -> Forall2 (crossing_rel k) tm tm' -> Forall (near_cell n r) cur -> Forall (near_cell n r') cur ->
  ray_loop F32A fuel (mkEnv F32A o' b' r' m' ec (signum F32A v) td') cur tm' acc = ray_loop F32A fuel (mkEnv F32A o b r m ec (signum F32A v) td) cur tm acc.
Proof.
  induction fuel as [|fuel IH]; intros n k o o' b b' r r' m m' ec v td td' cur tm tm' acc Hn Hf Lc Lo Lb B O R R0 R0' M D T N N'; [reflexivity|].
  cbn [ray_loop re_step re_end_cell re_t_delta]. rewrite (select_scaled _ _ _ T). set (i := select_dim F32A tm).
  pose proof (signum_small v i) as S1. cbn [t_to_isize tzero F32A]. set (s := f32_to_isize (nth i (signum F32A v) f0)) in *. set (y := nth i cur 0%Z).
  unfold isz. destruct (in_isize (y + s)); [|reflexivity]. cbn [obind].
  assert (RB : forall q, sized (-43) (-20) 20 q -> 0 < B2R q -> 0 < B2R q <= bp 20). { intros q (_ & _ & _ & U) P. rewrite Rabs_pos_eq in U; lra. }
  assert (NY : forall q, 0 < B2R q -> Forall (near_cell n q) cur -> near_cell n q y).
  { intros q Q0 F. destruct (nth_in_or_default i cur 0%Z) as [I|E]; [rewrite Forall_forall in F; now apply F|]. unfold near_cell, y. rewrite E. cbn [Z.abs]. apply IZR_le in Hn. pose proof (bpow_gt_0 radix2 20). pose proof (bpow_gt_0 radix2 23). nra. }
  set (cur1 := upd cur i (y + s)%Z).
  assert (N1 : Forall (near_cell (n + 1) r) cur1) by (apply near_upd; [exact Hn|exact N|apply near_step; auto; apply RB; [apply R|exact R0]]).
  assert (N1' : Forall (near_cell (n + 1) r') cur1) by (apply near_upd; [exact Hn|exact N'|apply near_step; auto; apply RB; [apply R|exact R0']]).
  assert (L1 : length cur1 = length cur) by apply upd_len.
  destruct (cell_eqb cur1 ec); [reflexivity|].
  rewrite (far_scaled (n + 1) k cur1 o o' b b' r r' m m' ec (signum F32A v) td td') by (assumption || lia || congruence || (rewrite L1; assumption)).
  destruct (too_far _ _ cur1); [reflexivity|]. apply (IH (n + 1)%Z k); try assumption; try lia; try congruence; try (rewrite L1; assumption).
  apply Forall2_upd_rel; [exact T|]. apply crossing_next; apply Forall2_nth_rel; try assumption; now left.
Qed.
Lemma cells_scaled : forall k (p p' b b' : point) r r', Forall2 (coordinate k) p p' -> Forall2 (coordinate k) b b' -> sc k (-43) (-20) 20 r r' -> 0 < B2R r ->
  cell_from_point F32A p' b' r' = cell_from_point F32A p b r.
Proof.
  intros k p p' b b' r r' P B R R0. revert b b' B. unfold cell_from_point. induction P as [|x x' p p' Hx P IH]; intros b b' B; [reflexivity|]. destruct B as [|y y' b b' Hy B]; [reflexivity|].
  cbn [map2]. f_equal; [now apply (cell_scaled k)|now apply IH].
Qed.
Lemma cells_small : forall (p b : point) r, Forall (sized (-59) (-36) 20) p -> Forall (sized (-59) (-36) 20) b -> sized (-43) (-20) 20 r -> 0 < B2R r ->
  Forall (fun c => IZR (Z.abs c) * B2R r <= bp 23) (cell_from_point F32A p b r).
Proof.
  intros p b r P B R R0. revert b B. unfold cell_from_point. induction P as [|x p Hx P IH]; intros b B; [constructor|]. destruct B as [|y b Hy B]; [constructor|]. cbn [map2]. constructor; [now apply cell_small|now apply IH].
Qed.
Lemma same_place : forall (o e b : point) r, Forall (sized (-59) (-36) 20) o -> Forall (sized (-59) (-36) 20) e -> Forall (sized (-59) (-36) 20) b -> sized (-43) (-20) 20 r -> 0 < B2R r -> length o = length e ->
  Forall (fun x => B2R x = 0) (vsub F32A e o) -> cell_from_point F32A o b r = cell_from_point F32A e b r.
Proof.
  intros o e b r O E B R R0 L H. symmetry. apply (cells_scaled 0); try assumption; [|apply self_all; assumption|apply sc_self; assumption].
  clear B b. revert o O L H. induction E as [|x e Hx E IH]; intros o O L H; destruct O as [|y o Hy O]; try discriminate L; [constructor|]. unfold vsub in H. cbn [map2] in H. inversion H as [|? ? H0 H1]; subst.
  constructor; [|apply IH; [assumption|now injection L|assumption]]. cbn [tsub F32A] in H0.
  destruct (sized_sub (-59) (-36) 20 x y ltac:(lia) ltac:(lia) Hx Hy) as (_ & Q & G). split; [exact Hy|]. split; [exact Hx|]. change (bp 0) with 1.
  assert (Z0 : B2R x - B2R y = 0); [|lra]. destruct (on_grid_low _ _ G) as [G0|G0]; [exact G0|exfalso].
  assert (K : bp (-59) <= Rabs (rnd (B2R x - B2R y))). { apply abs_round_ge_generic; auto with typeclass_instances. apply generic_format_bpow. unfold SpecFloat.fexp, SpecFloat.emin. lia. }
  rewrite <- Q, H0, Rabs_R0 in K. pose proof (bpow_gt_0 radix2 (-59)). lra.
Qed.
Lemma t_maxs_scaled : forall k v v' (o o' b b' : point) r r' c, Forall2 heading v v' -> Forall2 (coordinate k) o o' -> Forall2 (coordinate k) b b' -> sc k (-43) (-20) 20 r r' -> 0 < B2R r -> 0 < B2R r' ->
  Forall (fun c => IZR (Z.abs c) * B2R r <= bp 23) c -> Forall (fun c => IZR (Z.abs c) * B2R r' <= bp 23) c ->
  Forall2 (crossing_rel k) (init_t_max F32A (signum F32A v) b o v r c) (init_t_max F32A (signum F32A v') b' o' v' r' c).
Proof.
  intros k v v' o o' b b' r r' c H O B R R0 R0' C C'. unfold signum. revert o o' b b' c O B C C'.
  induction H as [|d d' v v' Hd H IH]; intros o o' b b' c O B C C'; [constructor|].
  destruct B as [|y y' b b' Hy B]; [constructor|]. destruct O as [|x x' o o' Hx O]; [constructor|]. destruct C as [|z c Hz C]; [constructor|]. inversion C'; subst.
  cbn [map init_t_max]. constructor; [now apply t_max_scaled|now apply IH].
Qed.
Lemma t_deltas_scaled : forall k v v' r r', Forall2 heading v v' -> sc k (-43) (-20) 20 r r' ->
  Forall2 (spacing_rel k) (init_t_delta F32A (signum F32A v) v r) (init_t_delta F32A (signum F32A v') v' r').
Proof. intros k v v' r r' H R. unfold init_t_delta, signum. induction H as [|d d' v v' Hd H IH]; [constructor|]. cbn [map map2]. constructor; [now apply t_delta_scaled|exact IH]. Qed.
Lemma rescaled_all : forall k p p', Forall2 (rescaled k) p p' -> Forall2 (coordinate k) p p'.
Proof. intros k p p' H. induction H; constructor; [now apply rescaled_sc|assumption]. Qed.
Lemma cell_rescaled : forall k (p p' b b' : point) r r', Forall2 (rescaled k) p p' -> Forall2 (rescaled k) b b' -> rescaled_size k r r' ->
  cell_from_point F32A p' b' r' = cell_from_point F32A p b r.
Proof. intros k p p' b b' r r' P B R. destruct (rescaled_size_sc _ _ _ R) as (S & R0 & _). apply (cells_scaled k); try assumption; now apply rescaled_all. Qed.
Lemma ray_rescaled : forall k fuel d (o o' e e' b b' : point) r r' m m', (d = 2 \/ d = 3)%nat -> length o = d -> length e = d -> length b = d ->
  Forall2 (rescaled k) o o' -> Forall2 (rescaled k) e e' -> Forall2 (rescaled k) b b' -> rescaled_size k r r' -> rescaled k m m' -> (Z.of_nat fuel <= 2 ^ 38)%Z ->
  cast_ray F32A fuel o' e' b' r' m' = cast_ray F32A fuel o e b r m.
Proof.
  intros k fuel d o o' e e' b b' r r' m m' Hd Lo Le Lb O E B R M Hf. destruct (rescaled_size_sc _ _ _ R) as (S & R0 & R0').
  apply rescaled_all in O. apply rescaled_all in E. apply rescaled_all in B. apply rescaled_sc in M. clear R.
  unfold cast_ray. change (T F32A) with f32. rewrite <- (Forall2_length _ _ _ O). destruct (_ || _); [|reflexivity]. cbn [oassert obind].
  rewrite (cells_scaled k o o' b b' r r' O B S R0), (cells_scaled k e e' b b' r r' E B S R0).
  set (oc := cell_from_point F32A o b r). set (ec := cell_from_point F32A e b r). destruct (cell_eqb oc ec) eqn:Q; [reflexivity|]. apply cell_eqb_neq in Q.
  assert (V : Forall2 (sc k (-59) (-59) 21) (vsub F32A e o) (vsub F32A e' o')).
  { apply (vsub_scaled k (-59) 20); try lia; [|exact O]. clear - E. induction E; constructor; [|assumption]. revert H. apply sc_weaken; lia. }
  assert (LV : (length (vsub F32A e o) = 2 \/ length (vsub F32A e o) = 3)%nat).
  { unfold vsub. destruct Hd as [Hd|Hd]; [left|right]; rewrite Hd in *; now apply map2_len. }
  assert (N : B2R (norm F32A (vsub F32A e o)) <> 0).
  { intro N0. apply Q. apply same_place; try assumption; try congruence; try (eapply left_all; eassumption); [apply S|]. pose proof (norm_ge _ LV (left_all _ _ _ _ _ _ V)) as G. rewrite N0 in G.
    revert G. apply Forall_impl. intros x Hx. pose proof (Rabs_pos (B2R x)). destruct (Req_dec (B2R x) 0) as [Z0|Z0]; [exact Z0|]. apply Rabs_pos_lt in Z0. lra. }
  pose proof (dir_scaled k _ _ LV V N) as D. set (v := vdivs F32A (vsub F32A e o) (norm F32A (vsub F32A e o))) in *. set (v' := vdivs F32A (vsub F32A e' o') (norm F32A (vsub F32A e' o'))) in *.
  assert (C1 : Forall (fun c => IZR (Z.abs c) * B2R r <= bp 23) oc) by (apply cells_small; try assumption; try (eapply left_all; eassumption); apply S).
  assert (C2 : Forall (fun c => IZR (Z.abs c) * B2R r' <= bp 23) oc).
  { unfold oc. rewrite <- (cells_scaled k o o' b b' r r' O B S R0). apply cells_small; try assumption; try (eapply right_all; eassumption); apply S. }
  assert (Lc : length oc = d) by (unfold oc, cell_from_point; now apply map2_len).
  pose proof (t_maxs_scaled k v v' o o' b b' r r' oc D O B S R0 R0' C1 C2) as TM. pose proof (t_deltas_scaled k v v' r r' D S) as TD.
  assert (NC : forall q, Forall (fun c => IZR (Z.abs c) * B2R q <= bp 23) oc -> Forall (near_cell 0 q) oc).
  { intros q. apply Forall_impl. intros z Hz. unfold near_cell. change (IZR 0) with 0. lra. }
  rewrite (signums_scaled _ _ D) in *. apply (loop_scaled fuel 0 k); try assumption; try lia; try congruence; auto.
Qed.
Lemma scan_rescaled : forall k fuel d (o o' : point) cloud cloud' bs bs' r r' m m', (d = 2 \/ d = 3)%nat -> length o = d -> length (bmin bs) = d ->
  (forall p, In p (pc_points cloud) -> length p = d) ->
  Forall2 (rescaled k) o o' -> Forall2 (Forall2 (rescaled k)) (pc_points cloud) (pc_points cloud') -> Forall2 (rescaled k) (bmin bs) (bmin bs') -> rescaled_size k r r' -> rescaled k m m' -> (Z.of_nat fuel <= 2 ^ 38)%Z ->
  cast_rays fuel o' cloud' bs' r' m' = cast_rays fuel o cloud bs r m.
Proof.
  intros k fuel d o o' cloud cloud' bs bs' r r' m m' Hd Lo Lb HL O P B R M Hf. unfold cast_rays. f_equal.
  generalize (@nil cell, @nil cell) as acc. revert HL P. generalize (pc_points cloud) (pc_points cloud'). intros ps ps' HL P.
  induction P as [|p p' ps ps' Hp P IH]; intro acc; [reflexivity|]. cbn [ofold].
  rewrite (ray_rescaled k fuel d o o' p p' (bmin bs) (bmin bs') r r' m m' Hd Lo (HL p (or_introl eq_refl)) Lb O Hp B R M Hf).
  destruct (cast_ray _ _ _ _ _ _ _); cbn [obind]; try reflexivity. apply IH. intros q Hq. apply HL. now right.
Qed.
