(** Rays whose coordinates are in range: no border distance overflows, so the loop
    always moves. *)
From Coq Require Import ZArith List Bool Reals Lra Lia Psatz.
From Flocq Require Import Core BinarySingleNaN.
From Verif Require Import Base F32 FloatFacts RoundError Arith Geom RayCaster Spec MathProofs ConverterProofs BoundsProofs RayProofs CastProofs.
Open Scope R_scope.

Lemma fsqrt_fin : forall x : f32, is_finite x = true -> 0 <= B2R x ->
  is_finite (fsqrt x) = true /\ B2R (fsqrt x) = rnd (sqrt (B2R x)).
Proof.
  intros x F P. destruct (Bsqrt_correct 24 128 _ _ mode_NE x) as (E & G & _). split; [|exact E].
  unfold fsqrt. rewrite G. destruct x as [s| | |s m e B]; try discriminate; try reflexivity.
  destruct s; [|reflexivity]. exfalso. simpl in P. unfold F2R in P. simpl in P.
  pose proof (bpow_gt_0 radix2 e). assert (IZR (Z.neg m) < 0) by (apply IZR_lt; lia). nra.
Qed.

Lemma rnd_ge_bp : forall x e, (-149 <= e)%Z -> bp e <= x -> bp e <= rnd x.
Proof.
  intros x e He H. rewrite <- (round_generic radix2 fexp32 ZnearestE (bp e)) at 1.
  - now apply rnd_le.
  - apply generic_format_bpow. unfold SpecFloat.fexp, SpecFloat.emin. lia.
Qed.
Lemma rnd_nonneg : forall x, 0 <= x -> 0 <= rnd x.
Proof. intros x H. rewrite <- rnd_0. now apply rnd_le. Qed.
Lemma rnd_ge_float : forall (a : f32) x, B2R a <= x -> B2R a <= rnd x.
Proof. intros a x H. rewrite <- (rnd_float a). now apply rnd_le. Qed.
Lemma rnd_abs_ge_bp : forall x e, (-149 <= e)%Z -> bp e <= Rabs x -> bp e <= Rabs (rnd x).
Proof.
  intros x e He H. apply abs_round_ge_generic; auto with typeclass_instances.
  apply generic_format_bpow. unfold SpecFloat.fexp, SpecFloat.emin. lia.
Qed.
Lemma format_mult_bp : forall n k, (0 <= n <= 2 ^ 24)%Z -> (-149 <= k)%Z -> generic_format radix2 fexp32 (IZR n * bp k).
Proof.
  intros n k Hn Hk. destruct (Z.eq_dec n 0) as [->|N0]. { rewrite Rmult_0_l. apply generic_format_0. }
  change (IZR n * bp k) with (F2R (Float radix2 n k)).
  destruct (Z.eq_dec n (2 ^ 24)) as [->|N1].
  - replace (F2R (Float radix2 (2 ^ 24) k)) with (bp (24 + k)).
    + apply generic_format_bpow. unfold SpecFloat.fexp, SpecFloat.emin. lia.
    + rewrite bpow_plus. unfold F2R. simpl. f_equal. 
  - apply generic_format_F2R. intros _. unfold cexp.
    change (fexp32 (mag radix2 (F2R (Float radix2 n k)))) with (FLT_exp (-149) 24 (mag radix2 (F2R (Float radix2 n k)))).
    unfold FLT_exp. rewrite mag_F2R by assumption.
    assert (mag radix2 (IZR n) <= 24)%Z.
    { apply mag_le_bpow. { now apply IZR_neq. } rewrite <- abs_IZR. change (bp 24) with (IZR (2 ^ 24)). apply IZR_lt. lia. }
    lia.
Qed.

(** Repeated addition stays finite. *)
Lemma add_bounded : forall (t d : f32) n k, is_finite t = true -> is_finite d = true ->
  (0 <= n < 2 ^ 24)%Z -> (-149 <= k <= 100)%Z -> Rabs (B2R t) <= IZR n * bp k -> Rabs (B2R d) <= bp k ->
  is_finite (fadd t d) = true /\ Rabs (B2R (fadd t d)) <= IZR (n + 1) * bp k.
Proof.
  intros t d n k Ft Fd Hn Hk Ht Hd.
  assert (A : Rabs (rnd (B2R t + B2R d)) <= IZR (n + 1) * bp k).
  { apply abs_round_le_generic; auto with typeclass_instances.
    - apply format_mult_bp; lia.
    - eapply Rle_trans. apply Rabs_triang. rewrite plus_IZR. lra. }
  destruct (fadd_fin t d Ft Fd) as [F E].
  - eapply Rle_lt_trans. exact A. apply Rle_lt_trans with (bp (24 + k)).
    + rewrite bpow_plus. apply Rmult_le_compat_r. apply bpow_ge_0. change (bp 24) with (IZR (2 ^ 24)). apply IZR_le. lia.
    + apply bpow_lt. lia.
  - split; [assumption|]. now rewrite E.
Qed.

(** Squared length of a vector of moderate size. *)
Lemma square_bounds : forall M (v : point), (length v = 2 \/ length v = 3)%nat -> (-70 <= M <= 60)%Z ->
  (forall i, (i < length v)%nat -> is_finite (nth i v f0) = true /\ Rabs (B2R (nth i v f0)) <= bp M) ->
  is_finite (square_length v) = true /\ 0 <= B2R (square_length v) <= bp (2 * M + 2) /\
  forall i, (i < length v)%nat -> rnd (B2R (nth i v f0) * B2R (nth i v f0)) <= B2R (square_length v).
Proof.
  intros M v Hv HM H.
  assert (BP : forall k, (-149 <= k <= 125)%Z -> bp (k + 1) = 2 * bp k).
  { intros k _. rewrite bpow_plus. change (bp 1) with 2. ring. }
  assert (SQ : forall x : f32, is_finite x = true -> Rabs (B2R x) <= bp M ->
     is_finite (fmul x x) = true /\ B2R (fmul x x) = rnd (B2R x * B2R x) /\ 0 <= B2R (fmul x x) <= bp (2 * M)).
  { intros x F A. assert (B : Rabs (B2R x * B2R x) <= bp (2 * M)).
    { replace (2 * M)%Z with (M + M)%Z by lia. rewrite bpow_plus, Rabs_mult. pose proof (Rabs_pos (B2R x)). nra. }
    assert (C := rnd_abs_le_bp _ (2 * M) ltac:(lia) B).
    destruct (fmul_fin x x F F) as [G E]. { eapply Rle_lt_trans. exact C. apply bpow_lt. lia. }
    split; [assumption|]. split; [assumption|]. rewrite E. split.
    - apply rnd_nonneg. pose proof (Rle_0_sqr (B2R x)). unfold Rsqr in *. lra.
    - eapply Rle_trans; [apply Rle_abs|exact C]. }
  assert (AD : forall (a b : f32) k, is_finite a = true -> is_finite b = true -> (-149 <= k <= 125)%Z ->
     0 <= B2R a <= bp k -> 0 <= B2R b <= bp k ->
     is_finite (fadd a b) = true /\ 0 <= B2R (fadd a b) <= bp (k + 1) /\ B2R a <= B2R (fadd a b) /\ B2R b <= B2R (fadd a b)).
  { intros a b k Fa Fb Hk Ha Hb. assert (B : Rabs (B2R a + B2R b) <= bp (k + 1)).
    { rewrite BP by assumption. rewrite Rabs_pos_eq; lra. }
    assert (C := rnd_abs_le_bp _ (k + 1) ltac:(lia) B).
    destruct (fadd_fin a b Fa Fb) as [G E]. { eapply Rle_lt_trans. exact C. apply bpow_lt. lia. }
    split; [assumption|]. rewrite E. split; [split|split].
    - apply rnd_nonneg. lra.
    - eapply Rle_trans; [apply Rle_abs|exact C].
    - apply rnd_ge_float. lra.
    - apply rnd_ge_float. lra. }
  assert (Z0 : forall a : f32, is_finite a = true -> 0 <= B2R a -> is_finite (fadd f0 a) = true /\ B2R (fadd f0 a) = B2R a).
  { intros a Fa Pa. destruct (fadd_fin f0 a eq_refl Fa) as [G E].
    - change (B2R f0) with 0. rewrite Rplus_0_l, rnd_float. apply B2R_lt_emax.
    - split; [assumption|]. rewrite E. change (B2R f0) with 0. now rewrite Rplus_0_l, rnd_float. }
  destruct v as [|x [|y [|z [|]]]]; cbn in Hv; try lia; cbn [square_length].
  - destruct (H 0%nat) as [Fx Ax]; [cbn; lia|]. destruct (H 1%nat) as [Fy Ay]; [cbn; lia|]. cbn [nth] in *.
    destruct (SQ x Fx Ax) as (Gx & Ex & Bx). destruct (SQ y Fy Ay) as (Gy & Ey & By).
    destruct (AD _ _ (2 * M)%Z Gx Gy ltac:(lia) Bx By) as (G1 & B1 & L1 & L2).
    destruct (Z0 _ G1 (proj1 B1)) as (G2 & E2). rewrite E2. split; [assumption|]. split.
    + split; [apply B1|]. eapply Rle_trans; [apply B1|]. apply bpow_le. lia.
    + intros [|[|i]] Hi; cbn [nth length] in *; try lia; lra.
  - destruct (H 0%nat) as [Fx Ax]; [cbn; lia|]. destruct (H 1%nat) as [Fy Ay]; [cbn; lia|].
    destruct (H 2%nat) as [Fz Az]; [cbn; lia|]. cbn [nth] in *.
    destruct (SQ x Fx Ax) as (Gx & Ex & Bx). destruct (SQ y Fy Ay) as (Gy & Ey & By). destruct (SQ z Fz Az) as (Gz & Ez & Bz).
    destruct (AD _ _ (2 * M)%Z Gx Gy ltac:(lia) Bx By) as (G1 & B1 & L1 & L2).
    assert (Bz' : 0 <= B2R (fmul z z) <= bp (2 * M + 1)). { rewrite BP by lia. pose proof (bpow_gt_0 radix2 (2 * M)). lra. }
    destruct (AD _ _ (2 * M + 1)%Z G1 Gz ltac:(lia) B1 Bz') as (G3 & B3 & L3 & L4).
    destruct (Z0 _ G3 (proj1 B3)) as (G2 & E2). rewrite E2. split; [assumption|]. split.
    + split; [apply B3|]. replace (2 * M + 2)%Z with (2 * M + 1 + 1)%Z by lia. apply B3.
    + intros [|[|[|i]]] Hi; cbn [nth length] in *; try lia; lra.
Qed.

(** Same coordinate, same cell. *)
Lemma same_real_cell : forall x y b r : f32, is_finite x = true -> is_finite y = true -> B2R x = B2R y -> fltb f0 r = true ->
  cell_coord_from_point_coord F32A x b r = cell_coord_from_point_coord F32A y b r.
Proof.
  intros x y b r Fx Fy E Hr. apply Z.le_antisymm; apply monotone1; try assumption; apply fleb_iff;
  repeat split; try (now apply is_finite_not_nan); rewrite !ext_finite by assumption; lra.
Qed.

Lemma upd_upd : forall {X} (l : list X) a x y, upd (upd l a x) a y = upd l a y.
Proof. induction l as [|z l IH]; intros [|a] x y; cbn; auto. f_equal. apply IH. Qed.

Lemma fltb_fin_inf : forall x : f32, is_finite x = true -> fltb x finf = true.
Proof.
  intros x F. apply fltb_iff. split; [now apply is_finite_not_nan|]. split; [reflexivity|].
  rewrite ext_finite by assumption. change (ext finf) with (bp 128).
  pose proof (B2R_lt_emax x) as A. apply Rabs_lt_inv in A. lra.
Qed.
Lemma fltb_inf_any : forall x : f32, fltb finf x = false.
Proof.
  intro x. destruct (fltb finf x) eqn:E; [|reflexivity]. apply fltb_iff in E. destruct E as (_ & N & E).
  change (ext finf) with (bp 128) in E. pose proof (ext_bounds x). lra.
Qed.

(** Among finite and infinite distances a finite one is chosen. *)
Lemma select_finite : forall (tm : point) d, length tm = d -> (d = 2 \/ d = 3)%nat ->
  (forall i, (i < d)%nat -> nth i tm finf = finf \/ is_finite (nth i tm finf) = true) ->
  (exists i, (i < d)%nat /\ is_finite (nth i tm finf) = true) ->
  is_finite (nth (select_dim F32A tm) tm finf) = true.
Proof.
  intros tm d L Hd H (i & Hi & Fi). unfold select_dim. change (T F32A) with f32. cbn [tltb tinf F32A]. rewrite L.
  pose proof (H 0%nat ltac:(lia)) as H0. pose proof (H 1%nat ltac:(lia)) as H1.
  destruct Hd as [-> | ->]; cbn [Nat.eqb].
  - destruct i as [|[|i]]; try lia.
    + destruct H1 as [H1|H1]; [|destruct (fltb _ _); assumption]. rewrite H1 at 1. rewrite fltb_fin_inf by assumption. assumption.
    + destruct H0 as [H0|H0]; [|destruct (fltb _ _); assumption]. rewrite H0 at 1. rewrite fltb_inf_any. assumption.
  - pose proof (H 2%nat ltac:(lia)) as H2.
    assert (X : forall j l, fltb (nth j tm finf) (nth l tm finf) = true -> is_finite (nth j tm finf) = true \/ nth j tm finf <> finf).
    { intros j l E. right. intro Q. rewrite Q, fltb_inf_any in E. discriminate. }
    destruct (fltb (nth 0 tm finf) (nth 1 tm finf)) eqn:E01.
    + assert (F0 : is_finite (nth 0 tm finf) = true).
      { destruct H0 as [Q|Q]; [|assumption]. rewrite Q, fltb_inf_any in E01. discriminate. }
      destruct (fltb (nth 0 tm finf) (nth 2 tm finf)) eqn:E02; [assumption|].
      destruct H2 as [Q|Q]; [|assumption]. rewrite Q, fltb_fin_inf in E02 by assumption. discriminate.
    + destruct (fltb (nth 1 tm finf) (nth 2 tm finf)) eqn:E12.
      * destruct H1 as [Q|Q]; [|assumption]. rewrite Q, fltb_inf_any in E12. discriminate.
      * destruct H2 as [Q|Q]; [|assumption]. exfalso.
        destruct H1 as [Q1|Q1]; [|rewrite Q, fltb_fin_inf in E12 by assumption; discriminate].
        destruct H0 as [Q0|Q0]; [|rewrite Q1, fltb_fin_inf in E01 by assumption; discriminate].
        destruct i as [|[|[|i]]]; try lia; rewrite ?Q, ?Q0, ?Q1 in Fi; discriminate.
Qed.

Section Range.
Context (d : nat) (Hd : (d = 2 \/ d = 3)%nat) (o e b : point) (r : f32).
Context (Lo : length o = d) (Le : length e = d) (Lb : length b = d) (HR : ray_range r o e b).
Notation oc := (cell_from_point F32A o b r).
Notation ec := (cell_from_point F32A e b r).
Notation O i := (nth i o f0).
Notation E i := (nth i e f0).
Notation Bm i := (nth i b f0).

Lemma r_fin : is_finite r = true. Proof. apply HR. Qed.
Lemma r_bounds : bp (-30) <= B2R r <= bp 30. Proof. apply HR. Qed.
Lemma r_pos : 0 < B2R r. Proof. pose proof r_bounds. pose proof (bpow_gt_0 radix2 (-30)). lra. Qed.
Lemma r_pos_b : fltb f0 r = true.
Proof.
  apply fltb_iff. split; [reflexivity|]. pose proof r_fin. pose proof r_pos. split; [now apply is_finite_not_nan|].
  rewrite (ext_finite r) by assumption. exact r_pos.
Qed.
Lemma r_ok : res_ok r.
Proof.
  split; [exact r_fin|]. unfold real. pose proof r_bounds.
  assert (bp (-100) <= bp (-30)) by (apply bpow_le; lia). assert (bp 30 <= bp 100) by (apply bpow_le; lia). lra.
Qed.
Lemma coords : forall i, (i < d)%nat ->
  (is_finite (O i) = true /\ Rabs (B2R (O i)) <= 1048576 * B2R r) /\
  (is_finite (E i) = true /\ Rabs (B2R (E i)) <= 1048576 * B2R r) /\
  (is_finite (Bm i) = true /\ Rabs (B2R (Bm i)) <= 1048576 * B2R r) /\
  (B2R (O i) = B2R (E i) \/ bp (-40) * B2R r <= Rabs (B2R (O i) - B2R (E i))).
Proof.
  intros i Hi. destruct HR as (_ & _ & A1 & A2 & A3 & A4). rewrite Forall_forall in A1, A2, A3.
  split; [apply A1, nth_In; lia|]. split; [apply A2, nth_In; lia|]. split; [apply A3, nth_In; lia|].
  clear - A4 Hi Lo Le. revert d o e Lo Le Hi A4. induction i as [|i IH]; intros [|n] [|x l] [|y m] Lo Le Hi A; cbn in *; try lia; inversion A; subst.
  - assumption. - apply (IH n); try assumption; lia.
Qed.
Lemma len_oc' : length oc = d. Proof. unfold cell_from_point. now apply map2_len. Qed.
Lemma len_ec' : length ec = d. Proof. unfold cell_from_point. now apply map2_len. Qed.
Lemma nth_cell : forall p i, length p = d -> (i < d)%nat ->
  nth i (cell_from_point F32A p b r) 0%Z = cell_coord_from_point_coord F32A (nth i p f0) (Bm i) r.
Proof.
  intros p i Lp Hi. destruct (cell_from_point_coords p b r (eq_trans Lp (eq_sym Lb))) as [_ Q]. apply Q. exact (eq_ind_r (fun n => (i < n)%nat) Hi Lp).
Qed.

(** Every cell index is near the coordinate's. *)
Lemma cell_near : forall p i, length p = d -> (i < d)%nat -> is_finite (nth i p f0) = true ->
  Rabs (B2R (nth i p f0)) <= 1048576 * B2R r ->
  Rabs (IZR (nth i (cell_from_point F32A p b r) 0%Z) * B2R r + B2R (Bm i) - B2R (nth i p f0)) <= 2 * B2R r /\
  (Z.abs (nth i (cell_from_point F32A p b r) 0) <= 2097154)%Z.
Proof.
  intros p i Lp Hi Fp Bp. destruct (coords i Hi) as (_ & _ & [Fb Bb] & _). rewrite nth_cell by assumption.
  pose proof r_pos as P. apply Rabs_le_inv in Bp, Bb.
  assert (D : Rabs (B2R (nth i p f0) - B2R (Bm i)) <= 2097152 * B2R r) by (apply Rabs_le; lra).
  pose proof (nearest1 (nth i p f0) (Bm i) r r_ok Fp Fb) as N. unfold real in N. change (2 ^ 26)%Z with 67108864%Z in N.
  specialize (N ltac:(lra)). cbv zeta in N. set (c := cell_coord_from_point_coord F32A (nth i p f0) (Bm i) r) in *.
  replace (bp (-22)) with (/ 4194304) in N by (unfold bpow; simpl; lra).
  assert (A : Rabs (IZR c * B2R r + B2R (Bm i) - B2R (nth i p f0)) <= 2 * B2R r) by lra. split; [exact A|].
  apply Rabs_le_inv in A, D.
  assert (IZR c <= 2097154) by (apply (Rmult_le_reg_r (B2R r)); lra). assert (-2097154 <= IZR c) by (apply (Rmult_le_reg_r (B2R r)); lra).
  apply le_IZR in H. apply (le_IZR (-2097154)) in H0. change (Z.abs c <= 2097154)%Z. lia.
Qed.

Definition env (m : f32) := env_of F32A o e b r m.
Definition tm0 := tm_of F32A o e b r.

Lemma nth_dir : forall i, (i < d)%nat ->
  nth i (vdivs F32A (vsub F32A e o) (norm F32A (vsub F32A e o))) f0 =
  fdiv (fsub (E i) (O i)) (fsqrt (square_length (map2 fsub e o))).
Proof.
  intros i Hi. unfold vdivs, norm. change (vsub F32A e o) with (map2 fsub e o).
  rewrite square_length_model by (rewrite (map2_len fsub d) by assumption; lia).
  set (L := fsqrt _). change (tsqrt F32A) with fsqrt. fold L.
  rewrite (nth_indep _ f0 (fdiv f0 L)) by (rewrite map_length, (map2_len fsub d); assumption).
  change (tdiv F32A) with fdiv. rewrite (map_nth (fun x => fdiv x L)). f_equal.
  clear - Lo Le Hi. revert d o e Lo Le Hi. induction i as [|i IH]; intros [|n] [|x l] [|y m] Lo Le Hi; cbn in *; try lia; auto.
  apply (IH n); lia.
Qed.

(** One coordinate of start and end apart. *)
Lemma apart : oc <> ec -> exists i, (i < d)%nat /\ B2R (O i) <> B2R (E i).
Proof.
  intro N. destruct (Forall_Exists_dec (fun i => B2R (O i) = B2R (E i)) (fun i => Req_EM_T _ _) (seq 0 d)) as [F|X].
  - elim N. apply nth_ext_Z. { rewrite len_oc', len_ec'. reflexivity. }
    intros i Hi. rewrite len_oc' in Hi. rewrite !nth_cell by assumption.
    destruct (coords i Hi) as ([F1 _] & [F2 _] & _). rewrite Forall_forall in F.
    apply same_real_cell; try assumption. { apply F, in_seq. lia. } exact r_pos_b.
  - apply Exists_exists in X. destruct X as (i & I & D). apply in_seq in I. exists i. split; [lia|exact D].
Qed.

Let K := mag_val radix2 _ (mag radix2 (B2R r)).
Lemma K_spec : bp (K - 1) <= B2R r <= bp K /\ (-29 <= K <= 31)%Z.
Proof.
  unfold K. destruct (mag radix2 (B2R r)) as [k Hk']. pose proof r_pos as P. assert (Hk := Hk' ltac:(lra)).
  rewrite Rabs_pos_eq in Hk by lra. cbn [mag_val]. pose proof r_bounds as [B1 B2]. split; [lra|].
  split.
  - assert (bp (-30) < bp k) by lra. apply lt_bpow in H. lia.
  - assert (bp (k - 1) <= bp 30) by lra. apply le_bpow in H. lia.
Qed.

Lemma bp_mul : forall a c, bp a * bp c = bp (a + c). Proof. intros. now rewrite bpow_plus. Qed.
Lemma diff_fin : forall i, (i < d)%nat -> let x := fsub (E i) (O i) in
  is_finite x = true /\ B2R x = rnd (B2R (E i) - B2R (O i)) /\ Rabs (B2R x) <= bp (K + 21) /\
  (B2R (O i) = B2R (E i) /\ B2R x = 0 \/ B2R (O i) <> B2R (E i) /\ bp (K - 41) <= Rabs (B2R x)).
Proof.
  intros i Hi x. destruct K_spec as [HK KK]. destruct (coords i Hi) as ([F1 A1] & [F2 A2] & _ & G).
  assert (A : Rabs (B2R (E i) - B2R (O i)) <= bp (K + 21)).
  { replace (K + 21)%Z with (21 + K)%Z by lia. rewrite <- bp_mul. change (bp 21) with 2097152.
    apply Rabs_le_inv in A1, A2. apply Rabs_le. lra. }
  assert (A' := rnd_abs_le_bp _ (K + 21) ltac:(lia) A).
  destruct (fsub_fin (E i) (O i) F2 F1) as [Fx Ex]. { eapply Rle_lt_trans; [exact A'|]. apply bpow_lt. lia. }
  fold x in Fx, Ex. split; [assumption|]. split; [assumption|]. split; [now rewrite Ex|].
  rewrite Ex. destruct (Req_dec (B2R (O i)) (B2R (E i))) as [Q|Q].
  - left. split; [assumption|]. rewrite Q. replace (B2R (E i) - B2R (E i)) with 0 by ring. apply rnd_0.
  - right. split; [assumption|]. destruct G as [G|G]; [contradiction|].
    apply rnd_abs_ge_bp; [lia|]. rewrite Rabs_minus_sym. eapply Rle_trans; [|exact G].
    replace (K - 41)%Z with (-40 + (K - 1))%Z by lia. rewrite <- bp_mul. apply Rmult_le_compat_l; [apply bpow_ge_0|apply HK].
Qed.

Lemma length_fin : oc <> ec -> let L := fsqrt (square_length (map2 fsub e o)) in
  is_finite L = true /\ bp (K - 41) <= B2R L <= bp (K + 22).
Proof.
  intros N L. destruct K_spec as [HK KK].
  assert (Lv : length (map2 fsub e o) = d) by (now apply map2_len).
  assert (Nv : forall i, (i < d)%nat -> nth i (map2 fsub e o) f0 = fsub (E i) (O i)).
  { clear - Lo Le. intros i Hi. revert d o e Lo Le Hi. induction i as [|i IH]; intros [|n] [|x l] [|y m] Lo Le Hi; cbn in *; try lia; auto.
    apply (IH n); lia. }
  destruct (square_bounds (K + 21) (map2 fsub e o)) as (F & B & S).
  - rewrite Lv. exact Hd. - lia.
  - rewrite Lv. intros i Hi. rewrite Nv by assumption. destruct (diff_fin i Hi) as (A1 & A2 & A3 & _). auto.
  - destruct (fsqrt_fin _ F (proj1 B)) as [FL EL]. fold L in FL, EL. split; [assumption|]. rewrite EL.
    destruct (apart N) as (i & Hi & Di). specialize (S i ltac:(lia)). rewrite Nv in S by assumption.
    destruct (diff_fin i Hi) as (_ & _ & _ & [[Q _]|[_ Q]]); [contradiction|].
    assert (S2 : bp (2 * (K - 41)) <= B2R (square_length (map2 fsub e o))).
    { eapply Rle_trans; [|exact S]. apply rnd_ge_bp; [lia|]. replace (2 * (K - 41))%Z with ((K - 41) + (K - 41))%Z by lia.
      rewrite bpow_plus. set (y := B2R (fsub (E i) (O i))) in *. pose proof (bpow_ge_0 radix2 (K - 41)).
      rewrite <- (Rabs_pos_eq (y * y)) by (pose proof (Rle_0_sqr y); unfold Rsqr in *; lra). rewrite Rabs_mult. nra. }
    assert (SB : forall k, sqrt (bp (2 * k)) = bp k).
    { intro k. replace (2 * k)%Z with (k + k)%Z by lia. rewrite bpow_plus. apply sqrt_square. apply bpow_ge_0. }
    split.
    + apply rnd_ge_bp; [lia|]. rewrite <- SB. apply sqrt_le_1; try apply bpow_ge_0; [apply B|assumption].
    + eapply Rle_trans; [apply Rle_abs|]. apply rnd_abs_le_bp; [lia|].
      rewrite Rabs_pos_eq by apply sqrt_pos. rewrite <- SB. apply sqrt_le_1; try apply bpow_ge_0; [apply B|].
      eapply Rle_trans; [apply B|]. apply bpow_le. lia.
Qed.

Lemma dir_fin : oc <> ec -> forall i, (i < d)%nat ->
  let D := fdiv (fsub (E i) (O i)) (fsqrt (square_length (map2 fsub e o))) in
  is_finite D = true /\
  ((B2R (O i) = B2R (E i) /\ B2R D = 0) \/
   (B2R (O i) < B2R (E i) /\ bp (-63) <= B2R D) \/ (B2R (E i) < B2R (O i) /\ B2R D <= - bp (-63))).
Proof.
  intros N i Hi D. destruct K_spec as [HK KK]. destruct (length_fin N) as [FL BL]. set (L := fsqrt _) in *.
  destruct (diff_fin i Hi) as (Fx & Ex & Ax & Cx). set (x := fsub (E i) (O i)) in *.
  assert (PL : 0 < B2R L) by (pose proof (bpow_gt_0 radix2 (K - 41)); lra).
  assert (IL : / B2R L <= bp (41 - K)).
  { replace (41 - K)%Z with (- (K - 41))%Z by lia. rewrite bpow_opp. apply Rinv_le; [apply bpow_gt_0|apply BL]. }
  assert (IG : bp (- (K + 22)) <= / B2R L).
  { rewrite bpow_opp. apply Rinv_le; [assumption|apply BL]. }
  assert (PI := Rinv_0_lt_compat _ PL).
  assert (UB : Rabs (B2R x / B2R L) <= bp 62).
  { unfold Rdiv. rewrite Rabs_mult, (Rabs_pos_eq (/ B2R L)) by lra.
    replace 62%Z with ((K + 21) + (41 - K))%Z by lia. rewrite <- bp_mul.
    apply Rmult_le_compat; try assumption; [apply Rabs_pos|lra]. }
  destruct (fdiv_fin x L Fx FL ltac:(lra)) as [FD ED].
  { eapply Rle_lt_trans. apply (rnd_abs_le_bp _ 62); [lia|assumption]. apply bpow_lt. lia. }
  fold D in FD, ED. split; [assumption|]. rewrite ED.
  destruct Cx as [[Q Z]|[Q Z]].
  - left. split; [assumption|]. rewrite Z. unfold Rdiv. rewrite Rmult_0_l. apply rnd_0.
  - right.
    assert (LB : bp (-63) <= Rabs (B2R x / B2R L)).
    { unfold Rdiv. rewrite Rabs_mult, (Rabs_pos_eq (/ B2R L)) by lra.
      replace (-63)%Z with ((K - 41) + - (K + 22))%Z by lia. rewrite <- bp_mul.
      apply Rmult_le_compat; try assumption; apply bpow_ge_0. }
    destruct (Rtotal_order (B2R (O i)) (B2R (E i))) as [T|[T|T]]; [left|contradiction|right]; split; try assumption.
    + apply rnd_ge_bp; [lia|].
      assert (0 <= B2R x) by (rewrite Ex; apply rnd_nonneg; lra).
      rewrite Rabs_pos_eq in LB; [assumption|]. unfold Rdiv. apply Rmult_le_pos; lra.
    + assert (B2R x <= 0). { rewrite Ex, <- rnd_0. apply rnd_le. lra. }
      assert (NX : B2R x / B2R L <= 0) by (unfold Rdiv; nra).
      rewrite Rabs_left1 in LB by assumption.
      rewrite <- (Ropp_involutive (B2R x / B2R L)), round_NE_opp. apply Ropp_le_contravar. apply rnd_ge_bp; [lia|assumption].
Qed.

(** The state before the first step. *)
Definition moving (i : nat) (s : Z) : Prop :=
  (s = 1%Z /\ B2R (O i) < B2R (E i)) \/ (s = (-1)%Z /\ B2R (E i) < B2R (O i)).

Lemma range_setup : forall m, oc <> ec -> exists k, (-149 <= k <= 100)%Z /\ forall i, (i < d)%nat ->
  let s := f32_to_isize (nth i (re_step F32A (env m)) f0) in
  (B2R (O i) = B2R (E i) /\ s = 0%Z /\ nth i tm0 finf = finf /\ nth i (re_t_delta F32A (env m)) finf = finf) \/
  (moving i s /\
   is_finite (nth i tm0 finf) = true /\ Rabs (B2R (nth i tm0 finf)) <= 8388608 * bp k /\
   is_finite (nth i (re_t_delta F32A (env m)) finf) = true /\ Rabs (B2R (nth i (re_t_delta F32A (env m)) finf)) <= bp k).
Proof.
  intros m N. destruct K_spec as [HK KK]. exists (K + 65)%Z. split; [lia|]. intros i Hi.
  set (V := vdivs F32A (vsub F32A e o) (norm F32A (vsub F32A e o))).
  assert (LV : length V = d) by (unfold V, vdivs; rewrite map_length; now apply map2_len).
  assert (LS : length (signum F32A V) = d) by (unfold signum; now rewrite map_length).
  pose proof (nth_dir i Hi) as ND. fold V in ND. destruct (dir_fin N i Hi) as [FD CD]. rewrite <- ND in FD, CD.
  pose proof (nth_init_t_max F32A d (signum F32A V) b o V r oc i LS Lb Lo LV len_oc' Hi) as TM.
  pose proof (nth_init_t_delta F32A d (signum F32A V) V r i LS LV Hi) as TD.
  rewrite nth_signum in TM, TD by (rewrite LV; exact Hi).
  unfold env, env_of, tm0, tm_of. cbn [re_step re_t_delta]. fold V.
  change (tinf F32A) with finf in TM, TD. rewrite TM, TD.
  rewrite (nth_signum F32A V) by (rewrite LV; exact Hi).
  change (tzero F32A) with f0 in *. set (D := nth i V f0) in *. cbv zeta.
  destruct (coords i Hi) as ([Fo Ao] & _ & [Fb Ab] & _).
  destruct (cell_near o i Lo Hi Fo Ao) as [_ BC]. set (c := nth i oc 0%Z) in *.
  assert (BCr : Rabs (IZR c) <= 2097154). { rewrite <- abs_IZR. now apply IZR_le. }
  pose proof r_pos as P. pose proof r_fin as Fr.
  assert (RB : bp (-100) <= B2R r <= bp 100) by apply r_ok.
  destruct (pcc_fin c (Bm i) r Fb Fr RB ltac:(lia) ltac:(lra)) as [Fp Ep].
  set (pc := point_coord_from_cell_coord F32A c (Bm i) r) in *.
  assert (Bpc : Rabs (B2R pc) <= bp (K + 23)).
  { apply Rle_trans with (8388608 * B2R r).
    - replace (B2R pc) with ((B2R pc - (IZR c * B2R r + B2R (Bm i))) + (IZR c * B2R r + B2R (Bm i))) by ring.
      eapply Rle_trans. apply Rabs_triang.
      assert (Rabs (IZR c * B2R r + B2R (Bm i)) <= 3145730 * B2R r).
      { eapply Rle_trans. apply Rabs_triang. rewrite Rabs_mult, (Rabs_pos_eq (B2R r)) by lra. nra. }
      assert (Rabs (IZR c) * B2R r <= 2097154 * B2R r) by nra.
      assert (u32 * ((2 + u32) * (Rabs (IZR c) * B2R r) + Rabs (B2R (Bm i))) <= B2R r).
      { pose proof (Rabs_pos (IZR c)). unfold u32. set (w := Rabs (IZR c) * B2R r) in *. lra. }
      lra.
    - replace (K + 23)%Z with (23 + K)%Z by lia. rewrite <- bp_mul. change (bp 23) with 8388608. lra. }
  assert (MAIN : forall s : f32, is_finite s = true -> Rabs (B2R s) = 1 -> bp (-63) <= Rabs (B2R D) ->
     let t := fdiv (fsub (fadd pc (fmul (fmul s r) fhalf)) (O i)) D in
     let dl := fdiv r (fabs D) in
     is_finite t = true /\ Rabs (B2R t) <= 8388608 * bp (K + 65) /\ is_finite dl = true /\ Rabs (B2R dl) <= bp (K + 65)).
  { intros s Fs As AD t dl.
    assert (ID : / Rabs (B2R D) <= bp 63).
    { change 63%Z with (- (-63))%Z. rewrite bpow_opp. apply Rinv_le; [apply bpow_gt_0|assumption]. }
    assert (PD : 0 < Rabs (B2R D)) by (pose proof (bpow_gt_0 radix2 (-63)); lra).
    assert (PID := Rinv_0_lt_compat _ PD).
    assert (ND0 : B2R D <> 0) by (intro Z; rewrite Z, Rabs_R0 in PD; lra).
    assert (BR : Rabs (B2R r) <= bp K) by (rewrite Rabs_pos_eq; lra).
    destruct (fmul_fin s r Fs Fr) as [F1 E1].
    { eapply Rle_lt_trans. apply (rnd_abs_le_bp _ K); [lia|]. rewrite Rabs_mult, As. lra. apply bpow_lt. lia. }
    assert (B1 : Rabs (B2R (fmul s r)) <= bp K).
    { rewrite E1. apply rnd_abs_le_bp; [lia|]. rewrite Rabs_mult, As. lra. }
    assert (FH : is_finite fhalf = true) by (vm_compute; reflexivity).
    assert (EH : B2R fhalf = / 2) by (to_SF fhalf).
    assert (B2a : Rabs (B2R (fmul s r) * B2R fhalf) <= bp K).
    { rewrite EH, Rabs_mult, (Rabs_pos_eq (/ 2)) by lra. pose proof (Rabs_pos (B2R (fmul s r))). lra. }
    destruct (fmul_fin _ fhalf F1 FH) as [F2 E2].
    { eapply Rle_lt_trans. apply (rnd_abs_le_bp _ K); [lia|assumption]. apply bpow_lt. lia. }
    assert (B2' : Rabs (B2R (fmul (fmul s r) fhalf)) <= bp K) by (rewrite E2; apply rnd_abs_le_bp; [lia|assumption]).
    assert (DB : forall k, bp (k + 1) = 2 * bp k) by (intro k; rewrite bpow_plus; change (bp 1) with 2; ring).
    assert (B3a : Rabs (B2R pc + B2R (fmul (fmul s r) fhalf)) <= bp (K + 24)).
    { eapply Rle_trans. apply Rabs_triang. replace (K + 24)%Z with (K + 23 + 1)%Z by lia. rewrite DB.
      assert (bp K <= bp (K + 23)) by (apply bpow_le; lia). lra. }
    destruct (fadd_fin _ _ Fp F2) as [F3 E3].
    { eapply Rle_lt_trans. apply (rnd_abs_le_bp _ (K + 24)); [lia|assumption]. apply bpow_lt. lia. }
    assert (B3 := rnd_abs_le_bp _ (K + 24) ltac:(lia) B3a). rewrite <- E3 in B3.
    assert (Bo : Rabs (B2R (O i)) <= bp (K + 24)).
    { eapply Rle_trans; [exact Ao|]. replace (K + 24)%Z with (24 + K)%Z by lia. rewrite <- bp_mul. change (bp 24) with 16777216. lra. }
    assert (B4a : Rabs (B2R (fadd pc (fmul (fmul s r) fhalf)) - B2R (O i)) <= bp (K + 24 + 1)).
    { rewrite DB. apply Rabs_le_inv in B3, Bo. apply Rabs_le. lra. }
    destruct (fsub_fin _ _ F3 Fo) as [F4 E4].
    { eapply Rle_lt_trans. apply (rnd_abs_le_bp _ (K + 24 + 1)); [lia|assumption]. apply bpow_lt. lia. }
    assert (B4 := rnd_abs_le_bp _ (K + 24 + 1) ltac:(lia) B4a). rewrite <- E4 in B4.
    assert (DIV : forall (x y : f32) k, is_finite x = true -> is_finite y = true -> Rabs (B2R y) = Rabs (B2R D) -> (-149 <= k + 63 <= 127)%Z ->
        Rabs (B2R x) <= bp k -> is_finite (fdiv x y) = true /\ Rabs (B2R (fdiv x y)) <= bp (k + 63)).
    { intros x y k Fx Fy Ey Hk Bx.
      assert (Ny : B2R y <> 0) by (intro Z; rewrite Z, Rabs_R0 in Ey; lra).
      assert (Q : Rabs (B2R x / B2R y) <= bp (k + 63)).
      { unfold Rdiv. rewrite Rabs_mult, Rabs_inv, Ey. rewrite <- bp_mul.
        apply Rmult_le_compat; try assumption; [apply Rabs_pos|lra]. }
      assert (Q' := rnd_abs_le_bp _ (k + 63) ltac:(lia) Q).
      destruct (fdiv_fin x y Fx Fy Ny) as [G H]. { eapply Rle_lt_trans; [exact Q'|]. apply bpow_lt. lia. }
      split; [assumption|]. now rewrite H. }
    destruct (DIV _ D (K + 24 + 1)%Z F4 FD eq_refl ltac:(lia) B4) as [F5 B5]. fold t in F5, B5.
    destruct (fabs_fin D FD) as [FA EA].
    destruct (DIV r (fabs D) K Fr FA ltac:(rewrite EA; apply Rabs_Rabsolu) ltac:(lia) BR) as [F6 B6]. fold dl in F6, B6.
    split; [assumption|]. split; [|split; [assumption|]].
    - eapply Rle_trans; [exact B5|]. change 8388608 with (bp 23). rewrite bp_mul. apply bpow_le. lia.
    - eapply Rle_trans; [exact B6|]. apply bpow_le. lia. }
  assert (NZ := is_finite_not_nan D FD).
  destruct CD as [[Q Z]|CD].
  - left. split; [assumption|].
    assert (ZD : feqb D f0 = true).
    { apply feqb_iff. split; [assumption|]. split; [reflexivity|]. rewrite ext_finite by assumption. exact Z. }
    unfold signum1. cbn [teqb tzero F32A]. rewrite ZD. split; [reflexivity|].
    unfold axis_t_max, axis_t_delta. cbn [teqb tzero tinf F32A]. change (feqb f0 f0) with true. auto.
  - right. pose proof (bpow_gt_0 radix2 (-63)) as PB.
    assert (ZD : feqb D f0 = false).
    { destruct (feqb D f0) eqn:Q; [|reflexivity]. apply feqb_iff in Q. destruct Q as (_ & _ & Q).
      rewrite ext_finite in Q by assumption. change (ext f0) with 0 in Q. lra. }
    assert (AD : bp (-63) <= Rabs (B2R D)).
    { destruct CD as [[_ C]|[_ C]]; [rewrite Rabs_pos_eq by lra; lra|rewrite Rabs_left by lra; lra]. }
    unfold signum1, axis_t_max, axis_t_delta. cbn [teqb tltb tzero tone tmone tinf tadd tmul tdiv tsub tabs thalf F32A]. rewrite ZD.
    fold pc. destruct CD as [[C1 C2]|[C1 C2]].
    + assert (PD : fltb f0 D = true).
      { apply fltb_iff. split; [reflexivity|]. split; [assumption|]. rewrite (ext_finite D) by assumption. change (ext f0) with 0. lra. }
      rewrite PD. change (feqb f1 f0) with false. split. { left. split; [exact to_isize_f1|assumption]. }
      apply MAIN; [reflexivity| |assumption]. rewrite f1_real. apply Rabs_R1.
    + assert (PD : fltb f0 D = false).
      { apply fltb_false_iff; try assumption; try reflexivity. rewrite (ext_finite D) by assumption. change (ext f0) with 0. lra. }
      rewrite PD. assert (Q : feqb fm1 f0 = false) by (vm_compute; reflexivity). rewrite Q.
      split. { right. split; [exact to_isize_fm1|assumption]. }
      apply MAIN; [vm_compute; reflexivity| |assumption].
      replace (B2R fm1) with (-1) by (symmetry; to_SF fm1). rewrite Rabs_left; lra.
Qed.

Section Steps.
Context (m : f32) (k : Z) (Hk : (-149 <= k <= 100)%Z).
Notation st i := (f32_to_isize (nth i (re_step F32A (env m)) f0)).
Notation dl i := (nth i (re_t_delta F32A (env m)) finf).
Context (Hdl : forall i, (i < d)%nat -> (B2R (O i) = B2R (E i) /\ st i = 0%Z) \/
  (moving i (st i) /\ is_finite (dl i) = true /\ Rabs (B2R (dl i)) <= bp k)).
Context (Hsome : exists i, (i < d)%nat /\ B2R (O i) <> B2R (E i)).

(** After [j] steps. *)
Definition after (j : Z) (tm : point) : Prop := length tm = d /\ forall i, (i < d)%nat ->
  (B2R (O i) = B2R (E i) /\ nth i tm finf = finf) \/
  (B2R (O i) <> B2R (E i) /\ is_finite (nth i tm finf) = true /\ Rabs (B2R (nth i tm finf)) <= IZR (8388608 + j) * bp k).

Lemma nth_next_tm : forall (tm : point) i, length tm = d -> (select_dim F32A tm < d)%nat ->
  nth i (next_tm F32A (env m) tm : point) finf =
  if Nat.eq_dec (select_dim F32A tm) i then fadd (nth i tm finf) (dl i) else nth i tm finf.
Proof.
  intros tm i Lt Ha. unfold next_tm. destruct (Nat.eq_dec (select_dim F32A tm) i) as [<-|N].
  - assert (H : (select_dim F32A tm < length tm)%nat) by (rewrite Lt; exact Ha).
    exact (nth_upd_same tm _ _ finf H).
  - exact (nth_upd_other tm _ _ _ finf N).
Qed.

Lemma after_step : forall j tm, after j tm -> (0 <= j < 8388608)%Z ->
  let a := select_dim F32A tm in
  (a < d)%nat /\ moving a (st a) /\ after (j + 1) (next_tm F32A (env m) tm).
Proof.
  intros j tm [Lt H] Hj a.
  assert (Ha : (a < d)%nat).
  { unfold a. rewrite <- Lt at 1. apply select_dim_lt. rewrite <- Lt in Hd. exact Hd. }
  assert (Fa : is_finite (nth a tm finf) = true).
  { apply (select_finite tm d Lt Hd).
    - intros i Hi. destruct (H i Hi) as [[_ Q]|(_ & Q & _)]; auto.
    - destruct Hsome as (i & Hi & Q). exists i. split; [assumption|]. destruct (H i Hi) as [[Q' _]|(_ & Q' & _)]; [contradiction|assumption]. }
  assert (Na : B2R (O a) <> B2R (E a)).
  { destruct (H a Ha) as [[_ Q]|(Q & _)]; [|assumption]. rewrite Q in Fa. discriminate. }
  destruct (Hdl a Ha) as [[Q _]|(Mv & Fd & Bd)]; [contradiction|].
  split; [assumption|]. split; [assumption|].
  split.
  - rewrite <- Lt. exact (upd_length tm a _).
  - intros i Hi. rewrite nth_next_tm by assumption. fold a. destruct (Nat.eq_dec a i) as [<-|Ne].
    + right. split; [assumption|]. destruct (H a Ha) as [[Q _]|(_ & F & B)]; [contradiction|].
      replace (8388608 + (j + 1))%Z with (8388608 + j + 1)%Z by lia. apply add_bounded; try assumption. lia.
    + destruct (H i Hi) as [Q|(Q & F & B)]; [now left|right]. split; [assumption|]. split; [assumption|].
      eapply Rle_trans; [exact B|]. apply Rmult_le_compat_r; [apply bpow_ge_0|]. apply IZR_le. lia.
Qed.

(** ** One axis only *)
Lemma line_loop : (forall c, too_far F32A (env m) c = false) ->
  forall a, (a < d)%nat -> (forall i, (i < d)%nat -> i <> a -> B2R (O i) = B2R (E i)) ->
  forall n fuel j cur tm acc, after j tm -> (0 <= j)%Z -> (j + Z.of_nat n <= 8388607)%Z -> length cur = d ->
  ec = upd cur a (nth a cur 0 + st a * Z.of_nat (S n))%Z -> (S n <= fuel)%nat ->
  (Z.abs (nth a cur 0%Z) + Z.of_nat n <= 2 ^ 40)%Z ->
  ray_loop F32A fuel (env m) cur tm acc =
  Ret (acc ++ map (fun q => upd cur a (nth a cur 0 + st a * Z.of_nat q)%Z) (seq 1 n), Some ec).
Proof.
  intros Far a Ha Only. induction n as [|n IH]; intros fuel j cur tm acc H Hj Hjn Lc Eec Hf Bc;
  (destruct fuel as [|fuel]; [lia|]); rewrite loop_unfold; cbv zeta;
  (destruct (after_step j tm H ltac:(lia)) as (Hs & Mv & H'));
  (assert (SA : select_dim F32A tm = a) by
    (destruct (Nat.eq_dec (select_dim F32A tm) a) as [Q|Q]; [exact Q|]; pose proof (Only _ Hs Q); destruct Mv as [[_ Mv]|[_ Mv]]; lra));
  unfold next_cell; rewrite SA in *; change (tzero F32A) with f0; change (t_to_isize F32A) with f32_to_isize;
  (assert (SU : st a = 1%Z \/ st a = (-1)%Z) by (destruct Mv as [[Mv _]|[Mv _]]; auto));
  (replace (in_isize _) with true by
     (symmetry; unfold in_isize, isize_min, isize_max; apply andb_true_iff; rewrite !Z.leb_le; change (2 ^ 40)%Z with 1099511627776%Z in Bc; lia));
  change (re_end_cell F32A (env m)) with ec.
  - rewrite Eec at 1. change (Z.of_nat 1) with 1%Z. rewrite Z.mul_1_r, cell_eqb_refl. cbn [seq map]. now rewrite app_nil_r.
  - replace (cell_eqb _ ec) with false.
    + rewrite Far. 
      assert (SAA : nth a (upd cur a (nth a cur 0 + st a)%Z) 0%Z = (nth a cur 0 + st a)%Z) by (apply nth_upd_same; lia).
      assert (UU : forall x y, upd (upd cur a x) a y = upd cur a y).
      { intros x y. apply upd_upd. }
      rewrite (IH fuel (j + 1)%Z (upd cur a (nth a cur 0 + st a)%Z)); try assumption; try lia.
      * rewrite <- app_assoc. f_equal. f_equal. f_equal. cbn [seq map app]. f_equal.
        { f_equal. lia. } rewrite <- (seq_shift n 1), map_map. apply map_ext. intro q. rewrite SAA, UU. f_equal. lia.
      * now rewrite upd_length.
      * rewrite SAA, UU, Eec. f_equal. lia.
    + symmetry. apply cell_eqb_neq. intro Q. rewrite Eec in Q. apply (f_equal (fun l => nth a l 0%Z)) in Q.
      rewrite !nth_upd_same in Q by lia. lia.
Qed.

(** ** Any direction, with a length limit *)

Definition sided (cur : cell) : Prop := forall i, (i < d)%nat -> (0 <= st i * (nth i cur 0 - nth i oc 0))%Z.

Lemma limit_loop : forall N, (0 <= N <= 8388607)%Z ->
  (forall c, length c = d -> manhattan oc c = N -> (forall i, (i < d)%nat -> (Z.abs (nth i c 0) <= 2 ^ 24 - 1)%Z) ->
     too_far F32A (env m) c = true) ->
  forall fuel j cur tm acc, after j tm -> (0 <= j < N)%Z -> length cur = d ->
  manhattan oc cur = j -> sided cur -> (forall i, (i < d)%nat -> (Z.abs (nth i cur 0) <= 2097154 + j)%Z) ->
  (N - j <= Z.of_nat fuel)%Z ->
  exists rc oe, ray_loop F32A fuel (env m) cur tm acc = Ret (rc, oe).
Proof.
  intros N HN Far. induction fuel as [|fuel IH]; intros j cur tm acc H Hj Lc M Sd Bc Hf; [lia|].
  rewrite loop_unfold. cbv zeta. destruct (after_step j tm H ltac:(lia)) as (Ha & Mv & H').
  set (a := select_dim F32A tm) in *. change (tzero F32A) with f0. change (t_to_isize F32A) with f32_to_isize.
  assert (SU : st a = 1%Z \/ st a = (-1)%Z) by (destruct Mv as [[Mv _]|[Mv _]]; auto).
  pose proof (Bc a Ha) as Ba.
  replace (in_isize _) with true by
    (symmetry; unfold in_isize, isize_min, isize_max; apply andb_true_iff; rewrite !Z.leb_le; lia).
  assert (NC : next_cell F32A (env m) cur tm = upd cur a (nth a cur 0 + st a)%Z) by reflexivity.
  rewrite NC. set (cur' := upd cur a (nth a cur 0 + st a)%Z).
  destruct (cell_eqb cur' _); [eauto|].
  assert (NN : forall i, (i < d)%nat -> nth i cur' 0%Z = if Nat.eq_dec a i then (nth a cur 0 + st a)%Z else nth i cur 0%Z).
  { intros i Hi. unfold cur'. destruct (Nat.eq_dec a i) as [<-|Ne]; [apply nth_upd_same; lia|now apply nth_upd_other]. }
  assert (Lc' : length cur' = d) by (unfold cur'; now rewrite upd_length).
  assert (MS : forall x y, length x = length y -> manhattan x y = manhattan y x).
  { induction x as [|u x IHx]; intros [|v y] L; try discriminate; auto. unfold manhattan in *. cbn. rewrite (IHx y) by (cbn in L; lia). lia. }
  assert (M' : manhattan oc cur' = (j + 1)%Z).
  { rewrite MS by (rewrite len_oc'; congruence). unfold cur'. rewrite manhattan_upd by (rewrite ?len_oc'; lia).
    rewrite (MS cur oc) by (rewrite len_oc'; congruence). rewrite M. pose proof (Sd a Ha). nia. }
  assert (Bc' : forall i, (i < d)%nat -> (Z.abs (nth i cur' 0) <= 2097154 + (j + 1))%Z).
  { intros i Hi. rewrite NN by assumption. pose proof (Bc i Hi). destruct (Nat.eq_dec a i) as [<-|]; lia. }
  destruct (Z.eq_dec (j + 1) N) as [Q|Q].
  - rewrite Far; [eauto|assumption|lia|]. intros i Hi. pose proof (Bc' i Hi). lia.
  - destruct (too_far F32A (env m) cur'); [eauto|].
    apply (IH (j + 1)%Z); try assumption; try lia.
    intros i Hi. rewrite NN by assumption. pose proof (Sd i Hi). destruct (Nat.eq_dec a i) as [<-|]; nia.
Qed.
End Steps.

Lemma tm0_len : length tm0 = d.
Proof.
  unfold tm0, tm_of. apply length_init_t_max; try assumption.
  - unfold signum, vdivs. rewrite !map_length. now apply map2_len.
  - unfold vdivs. rewrite map_length. now apply map2_len.
  - exact len_oc'.
Qed.

Lemma start : forall m, oc <> ec -> exists k, (-149 <= k <= 100)%Z /\
  (forall i, (i < d)%nat -> (B2R (O i) = B2R (E i) /\ f32_to_isize (nth i (re_step F32A (env m)) f0) = 0%Z) \/
    (moving i (f32_to_isize (nth i (re_step F32A (env m)) f0)) /\
     is_finite (nth i (re_t_delta F32A (env m)) finf) = true /\ Rabs (B2R (nth i (re_t_delta F32A (env m)) finf)) <= bp k)) /\
  after k 0 tm0.
Proof.
  intros m N. destruct (range_setup m N) as (k & Hk & H). exists k. split; [assumption|]. split.
  - intros i Hi. destruct (H i Hi) as [(A & B & _)|(A & _ & _ & B & C)]; auto.
  - split; [exact tm0_len|]. intros i Hi. destruct (H i Hi) as [(A & _ & B & _)|(A & B & C & _)]; [now left|right].
    split; [destruct A as [[_ A]|[_ A]]; lra|]. split; assumption.
Qed.

(** C35 *)
Lemma axis_ray : forall fuel m a, (a < d)%nat -> fltb f0 m = false ->
  (forall i, (i < d)%nat -> i <> a -> real (O i) = real (E i)) ->
  let n := Z.to_nat (Z.abs (nth a ec 0 - nth a oc 0)%Z) in (n <= fuel)%nat ->
  cast_ray F32A fuel o e b r m =
  Ret (map (fun q => upd oc a (nth a oc 0 + Z.sgn (nth a ec 0 - nth a oc 0)%Z * Z.of_nat q)%Z) (seq 0 n), Some ec).
Proof.
  intros fuel m a Ha Hm Only n Hn. rewrite cast_unfold. change (T F32A) with f32. rewrite Lo.
  replace (Nat.eqb d 2 || Nat.eqb d 3)%bool with true by (destruct Hd as [-> | ->]; reflexivity).
  assert (EC : ec = upd oc a (nth a ec 0%Z)).
  { apply nth_ext_Z. { now rewrite upd_length, len_oc', len_ec'. }
    intros i Hi. rewrite len_ec' in Hi. destruct (Nat.eq_dec a i) as [<-|Ne].
    - symmetry. apply nth_upd_same. now rewrite len_oc'.
    - rewrite nth_upd_other by assumption. rewrite !nth_cell by assumption. symmetry.
      destruct (coords i Hi) as ([F1 _] & [F2 _] & _). apply same_real_cell; try assumption; [|exact r_pos_b].
      apply Only; auto. }
  destruct (cell_eqb oc ec) eqn:Q.
  - apply cell_eqb_eq in Q. unfold n. rewrite Q, Z.sub_diag. reflexivity.
  - apply cell_eqb_neq in Q. destruct (start m Q) as (k & Hk & Hdl & H0). pose proof (apart Q) as Hsome.
    set (s := f32_to_isize (nth a (re_step F32A (env m)) f0)) in *.
    assert (NE : nth a oc 0%Z <> nth a ec 0%Z).
    { intro Z. apply Q. rewrite EC, <- Z. symmetry. apply upd_self. }
    destruct (coords a Ha) as ([Fo Ao] & [Fe Ae] & _).
    destruct (cell_near o a Lo Ha Fo Ao) as [_ Bo]. destruct (cell_near e a Le Ha Fe Ae) as [_ Be].
    assert (SG : s = Z.sgn (nth a ec 0 - nth a oc 0)%Z).
    { assert (MO : forall x y : f32, is_finite x = true -> is_finite y = true -> B2R x <= B2R y ->
        (cell_coord_from_point_coord F32A x (Bm a) r <= cell_coord_from_point_coord F32A y (Bm a) r)%Z).
      { intros x y Fx Fy L. apply monotone1; [exact r_pos_b|]. apply fleb_iff.
        rewrite !ext_finite by assumption. repeat split; try assumption; now apply is_finite_not_nan. }
      rewrite !nth_cell in NE by assumption. rewrite !nth_cell by assumption.
      assert (X1 : forall u v, u <> v -> (u <= v)%Z -> 1%Z = Z.sgn (v - u)) by (intros; lia).
      assert (X2 : forall u v, u <> v -> (v <= u)%Z -> (-1)%Z = Z.sgn (v - u)) by (intros; lia).
      destruct (Hdl a Ha) as [[Z _]|([[S L]|[S L]] & _)].
      - elim NE. now apply same_real_cell; try assumption; exact r_pos_b.
      - fold s in S. rewrite S. apply X1; [exact NE|]. apply (MO (O a) (E a) Fo Fe). lra.
      - fold s in S. rewrite S. apply X2; [exact NE|]. apply (MO (E a) (O a) Fe Fo). lra. }
    assert (Hn1 : (1 <= n)%nat) by (unfold n; lia).
    pose proof (line_loop m k Hk Hdl Hsome) as LL.
    assert (Far : forall c, too_far F32A (env m) c = false).
    { intro c. unfold too_far. cbn [re_max_len env env_of tltb tzero F32A]. now rewrite Hm. }
    fold (env m). fold tm0.
    rewrite (LL Far a Ha (fun i Hi Ni => Only i Hi Ni) (n - 1)%nat fuel 0%Z oc tm0 [oc] H0); try lia.
    + f_equal. f_equal. fold s. destruct n as [|n'] eqn:En; [lia|]. replace (S n' - 1)%nat with n' by lia.
      cbn [seq map app]. rewrite SG. f_equal. rewrite Z.mul_0_r, Z.add_0_r. symmetry. apply upd_self.
    + exact len_oc'.
    + rewrite EC at 1. f_equal. fold s. rewrite SG. replace (S (n - 1))%nat with n by lia. unfold n. lia.
Qed.

(** ** C38 *)
Lemma far_axis : forall (x y : cell) q, length x = d -> length y = d -> (Z.of_nat d * q <= manhattan x y)%Z ->
  exists i, (i < d)%nat /\ (q <= Z.abs (nth i y 0 - nth i x 0))%Z.
Proof.
  intros x y q Lx Ly H. destruct Hd as [D|D]; rewrite D in *.
  - destruct x as [|x1 [|x2 [|]]]; try discriminate. destruct y as [|y1 [|y2 [|]]]; try discriminate.
    unfold manhattan in H. cbn [map2 fold_right] in H. destruct (Z_le_dec q (Z.abs (y1 - x1))); [exists 0%nat|exists 1%nat]; cbn [nth]; lia.
  - destruct x as [|x1 [|x2 [|x3 [|]]]]; try discriminate. destruct y as [|y1 [|y2 [|y3 [|]]]]; try discriminate.
    unfold manhattan in H. cbn [map2 fold_right] in H. destruct (Z_le_dec q (Z.abs (y1 - x1))); [exists 0%nat; cbn [nth]; lia|].
    destruct (Z_le_dec q (Z.abs (y2 - x2))); [exists 1%nat|exists 2%nat]; cbn [nth]; lia.
Qed.

Lemma far_enough : forall m c q, fltb f0 m = true -> is_finite m = true -> B2R m <= 1048576 * B2R r ->
  length c = d -> (forall i, (i < d)%nat -> (Z.abs (nth i c 0) <= 2 ^ 24 - 1)%Z) ->
  B2R m + 8 * B2R r <= IZR q * B2R r -> (Z.of_nat d * q <= manhattan oc c)%Z ->
  too_far F32A (env m) c = true.
Proof.
  intros m c q Pm Fm Bm' Lc Bc Hq Hman. destruct K_spec as [HK KK]. pose proof r_pos as P. pose proof r_fin as Fr.
  apply (too_far_iff d); try assumption. split; [assumption|]. unfold beyond.
  assert (RB : bp (-100) <= B2R r <= bp 100) by apply r_ok.
  set (V := map2 fsub (map2 (fun (k : Z) (b0 : f32) => fadd (fmul (f32_of_Z k) r) b0) c b) o).
  assert (LV : length V = d) by (unfold V; apply map2_len; [now apply map2_len|assumption]).
  assert (PM : 0 < B2R m).
  { apply fltb_iff in Pm. destruct Pm as (_ & _ & Pm). rewrite (ext_finite m) in Pm by assumption. exact Pm. }
  assert (NV : forall i, (i < d)%nat ->
     nth i V f0 = fsub (point_coord_from_cell_coord F32A (nth i c 0%Z) (Bm i) r) (O i)).
  { clear - Lc Lb Lo. unfold V. intros i Hi. clear V. revert d c b o Lc Lb Lo Hi.
    induction i as [|i IH]; intros [|n] [|x c] [|y b] [|z o] Lc Lb Lo Hi; cbn in *; try lia; auto. apply (IH n); lia. }
  assert (AX : forall i, (i < d)%nat -> is_finite (nth i V f0) = true /\ Rabs (B2R (nth i V f0)) <= bp (K + 25) /\
     (IZR (Z.abs (nth i c 0 - nth i oc 0)%Z) - 7) * B2R r <= Rabs (B2R (nth i V f0))).
  { intros i Hi. rewrite NV by assumption. destruct (coords i Hi) as ([Fo Ao] & _ & [Fb Ab] & _).
    destruct (cell_near o i Lo Hi Fo Ao) as [NO BO]. specialize (Bc i Hi). set (x := nth i c 0%Z) in *.
    change (2 ^ 24 - 1)%Z with 16777215%Z in Bc.
    assert (BX : Rabs (IZR x) <= 16777215). { rewrite <- abs_IZR. apply IZR_le. lia. }
    destruct (pcc_fin x (Bm i) r Fb Fr RB ltac:(lia) ltac:(lra)) as [Fp Ep].
    set (pc := point_coord_from_cell_coord F32A x (Bm i) r) in *.
    set (y := nth i oc 0%Z) in *.
    assert (W : Rabs (IZR x) * B2R r <= 16777215 * B2R r) by nra. set (w := Rabs (IZR x) * B2R r) in *.
    assert (EP : Rabs (B2R pc - (IZR x * B2R r + B2R (Bm i))) <= 3 * B2R r).
    { eapply Rle_trans; [exact Ep|]. unfold u32. lra. }
    assert (XB : - (16777215 * B2R r) <= IZR x * B2R r <= 16777215 * B2R r).
    { apply Rabs_le_inv in BX. nra. }
    set (xr := IZR x * B2R r) in *.
    apply Rabs_le_inv in EP, NO, Ab, Ao. 
    assert (D : Rabs (B2R pc - B2R (O i)) <= bp (K + 25)).
    { replace (K + 25)%Z with (25 + K)%Z by lia. rewrite <- bp_mul. change (bp 25) with 33554432. apply Rabs_le. lra. }
    assert (D' := rnd_abs_le_bp _ (K + 25) ltac:(lia) D).
    destruct (fsub_fin pc (O i) Fp Fo) as [F E]. { eapply Rle_lt_trans; [exact D'|]. apply bpow_lt. lia. }
    split; [assumption|]. split; [now rewrite E|]. rewrite E.
    pose proof (rnd_sub_rel pc (O i)) as ER. set (z := B2R pc - B2R (O i)) in *.
    assert (ZB : Rabs z <= 18874375 * B2R r) by (unfold z; apply Rabs_le; lra).
    assert (LB : (IZR (Z.abs (x - y)) - 5) * B2R r <= Rabs z).
    { rewrite abs_IZR, minus_IZR. unfold z. clear - EP NO P. unfold xr in *.
      assert (T : Rabs (IZR x - IZR y) * B2R r <= Rabs (B2R pc - B2R (O i)) + 5 * B2R r); [|lra].
      rewrite <- (Rabs_pos_eq (B2R r)) at 1 by lra. rewrite <- Rabs_mult.
      replace ((IZR x - IZR y) * B2R r) with ((B2R pc - B2R (O i)) + (IZR x * B2R r - IZR y * B2R r - B2R pc + B2R (O i))) by ring.
      eapply Rle_trans. apply Rabs_triang. apply Rplus_le_compat_l. apply Rabs_le. lra. }
    assert (Rabs z - Rabs (rnd z) <= Rabs (rnd z - z)).
    { rewrite (Rabs_minus_sym (rnd z)). apply Rabs_triang_inv. }
    assert (u32 * Rabs z <= 2 * B2R r). { unfold u32. lra. } lra. }
  destruct (square_bounds (K + 25) V) as (F & _ & SQ).
  { rewrite LV. exact Hd. } { lia. } { rewrite LV. intros i Hi. destruct (AX i Hi) as (A1 & A2 & _). auto. }
  destruct (far_axis oc c q len_oc' Lc Hman) as (i & Hi & Qi). specialize (SQ i ltac:(lia)).
  destruct (AX i Hi) as (FV & BV & GV). set (v := B2R (nth i V f0)) in *.
  apply IZR_le in Qi.
  assert (GV' : B2R m + B2R r <= Rabs v). { assert (IZR q * B2R r <= IZR (Z.abs (nth i c 0 - nth i oc 0)%Z) * B2R r) by (apply Rmult_le_compat_r; lra). lra. }
  set (mm := B2R m) in *. set (rr := B2R r) in *.
  assert (M2 : Rabs (mm * mm) <= bp 100).
  { rewrite Rabs_pos_eq by nra. assert (mm <= bp 50).
    { eapply Rle_trans; [exact Bm'|]. replace (bp 50) with (1048576 * bp 30) by (change 1048576 with (bp 20); rewrite bp_mul; reflexivity).
      pose proof r_bounds. fold rr in H. lra. }
    replace (bp 100) with (bp 50 * bp 50) by (rewrite bp_mul; reflexivity). nra. }
  destruct (fmul_fin m m Fm Fm) as [FM EM].
  { fold mm. eapply Rle_lt_trans. apply (rnd_abs_le_bp _ 100); [lia|exact M2]. apply bpow_lt. lia. }
  fold mm in EM. apply fltb_iff. split; [now apply is_finite_not_nan|]. split; [now apply is_finite_not_nan|].
  rewrite !ext_finite by assumption. rewrite EM. eapply Rlt_le_trans; [|exact SQ].
  pose proof (rnd_err (mm * mm)) as E1. pose proof (rnd_err (v * v)) as E2.
  assert (VV : v * v = Rabs v * Rabs v). { rewrite <- Rabs_mult. symmetry. apply Rabs_pos_eq. nra. }
  assert (SV : (mm + rr) * (mm + rr) <= v * v) by (rewrite VV; nra).
  rewrite (Rabs_pos_eq (mm * mm)) in E1 by nra. rewrite (Rabs_pos_eq (v * v)) in E2 by nra.
  apply Rabs_le_inv in E1, E2.
  assert (R2 : bp (-60) <= rr * rr).
  { replace (bp (-60)) with (bp (-30) * bp (-30)) by (rewrite bp_mul; reflexivity). pose proof r_bounds. fold rr in H. pose proof (bpow_ge_0 radix2 (-30)). nra. }
  assert (T60 : bp (-150) <= / 100 * bp (-60)).
  { replace (bp (-150)) with (bp (-90) * bp (-60)) by (rewrite bp_mul; reflexivity). apply Rmult_le_compat_r; [apply bpow_ge_0|].
    apply Rle_trans with (bp (-10)); [apply bpow_le; lia|]. unfold bpow; simpl; lra. }
  set (A := mm * mm) in *. set (B := v * v) in *. 
  assert (S1 : (mm + rr) * (mm + rr) = A + 2 * (mm * rr) + rr * rr) by (unfold A; ring).
  assert (S2 : A <= 1048576 * (mm * rr)) by (unfold A; nra).
  assert (S3 : 0 <= mm * rr) by nra.
  set (ee := mm * rr) in *. set (g := rr * rr) in *. clearbody A B ee g.
  assert (UU : u32 = / 16777216) by reflexivity. rewrite UU in E1, E2. pose proof (bpow_gt_0 radix2 (-60)) as P60. destruct E1 as [_ E1]. destruct E2 as [E2 _]. clear - E1 E2 SV S1 S2 S3 T60 R2 P60. lra.
Qed.

Lemma limited_ray : forall fuel m, fltb f0 m = true -> finite m -> real m <= 1048576 * real r ->
  INR d * (real m / real r + 10) <= INR fuel ->
  exists rc oe, cast_ray F32A fuel o e b r m = Ret (rc, oe).
Proof.
  intros fuel m Pm Fm Bm' Hf. unfold real, finite in *. rewrite cast_unfold. change (T F32A) with f32. rewrite Lo.
  replace (Nat.eqb d 2 || Nat.eqb d 3)%bool with true by (destruct Hd as [-> | ->]; reflexivity).
  destruct (cell_eqb oc ec) eqn:Q; [eauto|]. apply cell_eqb_neq in Q.
  destruct (start m Q) as (k & Hk & Hdl & H0). pose proof (apart Q) as Hsome. pose proof r_pos as P.
  assert (PM : 0 < B2R m).
  { apply fltb_iff in Pm. destruct Pm as (_ & _ & Pm). rewrite (ext_finite m) in Pm by assumption. exact Pm. }
  set (x := B2R m / B2R r) in *. assert (EX : x * B2R r = B2R m) by (unfold x; field; lra).
  assert (X0 : 0 < x) by (unfold x; apply Rdiv_lt_0_compat; assumption).
  assert (X1 : x <= 1048576) by (apply (Rmult_le_reg_r (B2R r)); lra).
  set (q := up (x + 8)). destruct (archimed (x + 8)) as [Q1 Q2]. fold q in Q1, Q2.
  assert (q0 : (8 < q)%Z) by (apply lt_IZR; lra). assert (q1 : (q <= 1048585)%Z) by (apply le_IZR; lra).
  assert (HF : (Z.of_nat d * q <= Z.of_nat fuel)%Z).
  { apply le_IZR. rewrite mult_IZR, <- !INR_IZR_INZ. eapply Rle_trans; [|exact Hf].
    apply Rmult_le_compat_l; [apply pos_INR|]. lra. }
  clearbody q. assert (dd : (2 <= Z.of_nat d <= 3)%Z) by lia.
  refine (limit_loop m k Hk Hdl Hsome (Z.of_nat d * q)%Z _ _ fuel 0%Z oc _ [oc] H0 _ len_oc' (manhattan_refl oc) _ _ _); try lia.
  - intros c Lc Mc Bc. apply (far_enough m c q); try assumption; [|lia].
    rewrite <- EX. nra.
  - intros i Hi. rewrite Z.sub_diag, Z.mul_0_r. lia.
  - intros i Hi. destruct (coords i Hi) as ([F1 A1] & _). destruct (cell_near o i Lo Hi F1 A1) as [_ B1]. lia.
Qed.
End Range.
