(** Proofs about src/geom/converter.rs. *)
From Coq Require Import ZArith List Bool Reals Lra Lia Psatz.
From Flocq Require Import Core BinarySingleNaN.
From Verif Require Import Base F32 FloatFacts RoundError Arith Geom Spec.
Open Scope R_scope.

Lemma res_ok_pos : forall r, res_ok r -> 0 < B2R r.
Proof. intros r [_ [H _]]. unfold real in H. pose proof (bpow_gt_0 radix2 (-100)). lra. Qed.

(** ** Round trip *)
Lemma round_trip1 : forall (c : Z) (o r : f32), res_ok r -> (Z.abs c <= 2 ^ 20)%Z ->
  within_cells (2 ^ 20) r o ->
  cell_coord_from_point_coord F32A (point_coord_from_cell_coord F32A c o r) o r = c.
Proof. intros c o r [Fr Hr] Hc [Fo Ho]. now apply round_trip_coord. Qed.

Lemma round_trip : forall (c : cell) (o : point) (r : f32), res_ok r ->
  length o = length c ->
  Forall (fun x => (Z.abs x <= 2 ^ 20)%Z) c -> Forall (within_cells (2 ^ 20) r) o ->
  cell_from_point F32A (point_from_cell F32A c o r) o r = c.
Proof.
  intros c o r Hr. revert o. unfold cell_from_point, point_from_cell.
  induction c as [|x c IH]; intros [|y o] L Hc Ho; try discriminate; [reflexivity|].
  inversion Hc; subst. inversion Ho; subst. cbn [map2]. f_equal.
  - now apply round_trip1.
  - apply IH; auto.
Qed.

Lemma round_trip_n : forall (c : cell) (o r : point), Forall res_ok r ->
  length o = length c -> length r = length c ->
  Forall (fun x => (Z.abs x <= 2 ^ 20)%Z) c -> Forall2 (within_cells (2 ^ 20)) r o ->
  cell_from_point_n F32A (point_from_cell_n F32A c o r) o r = c.
Proof.
  unfold cell_from_point_n, point_from_cell_n.
  induction c as [|x c IH]; intros [|y o] [|z r] Hr L L' Hc Ho; try discriminate; [reflexivity|].
  inversion Hc; subst. inversion Ho; subst. inversion Hr; subst. cbn [map2 combine fst snd]. f_equal.
  - now apply round_trip1.
  - apply IH; auto.
Qed.

(** ** Nearest cell *)
Lemma nearest1 : forall p o r : f32, res_ok r -> finite p -> finite o ->
  Rabs (real p - real o) <= IZR (2 ^ 26) * real r ->
  let c := cell_coord_from_point_coord F32A p o r in
  Rabs (IZR c * real r + real o - real p)
    <= / 2 * real r + bpow radix2 (-22) * Rabs (real p - real o).
Proof.
  intros p o r HR Fp Fo Hd. pose proof (res_ok_pos r HR) as P. destruct HR as [Fr Hr].
  unfold real, finite in *.
  destruct (quot_fin p o r Fp Fo Fr Hr Hd) as [Fq Eq].
  cbv zeta. rewrite ccp_quot by assumption.
  set (d := B2R p - B2R o) in *. set (q := B2R (quot p o r)) in *.
  set (x := d / B2R r) in *.
  assert (Ed : d = x * B2R r) by (unfold x; field; lra).
  assert (Hx : Rabs x <= 67108864).
  { apply Rmult_le_reg_r with (B2R r). assumption.
    rewrite Ed, Rabs_mult, (Rabs_pos_eq (B2R r)) in Hd by lra. exact Hd. }
  assert (Hn : Rabs (q - IZR (ZnearestA q)) <= / 2).
  { apply Znearest_half. }
  pose proof bp_m150_u as B150. pose proof (bpow_gt_0 radix2 (-150)) as P150.
  assert (U : 0 < u32 < /1000000) by (unfold u32; lra).
  assert (Hs : sat (ZnearestA q) = ZnearestA q).
  { apply sat_small. apply le_IZR. rewrite abs_IZR.
    apply Rle_trans with 100000000. 2: { apply (IZR_le 100000000). lia. }
    replace (IZR (ZnearestA q)) with ((q - x) - (q - IZR (ZnearestA q)) + x) by ring.
    eapply Rle_trans. apply Rabs_triang. eapply Rle_trans. apply Rplus_le_compat_r.
    apply Rabs_triang. rewrite Rabs_Ropp. nra. }
  rewrite Hs.
  replace (IZR (ZnearestA q) * B2R r + B2R o - B2R p) with ((IZR (ZnearestA q) - x) * B2R r)
    by (replace (B2R p) with (x * B2R r + B2R o) by (rewrite <- Ed; unfold d; ring); ring).
  rewrite Rabs_mult, (Rabs_pos_eq (B2R r)) by lra.
  rewrite Ed, Rabs_mult, (Rabs_pos_eq (B2R r)) by lra.
  rewrite <- Rmult_assoc, <- Rmult_plus_distr_r. apply Rmult_le_compat_r; [lra|].
  replace (bp (-22)) with (4 * u32) by (unfold u32, bpow; simpl; lra).
  destruct (Rle_or_lt (Rabs x) (/ 4)) as [S|S].
  - assert (ZnearestA q = 0%Z).
    { apply ZnearestA_close. rewrite Rminus_0_r.
      replace q with ((q - x) + x) by ring. eapply Rle_lt_trans. apply Rabs_triang. nra. }
    rewrite H. replace (0 - x) with (- x) by ring. rewrite Rabs_Ropp. nra.
  - replace (IZR (ZnearestA q) - x) with ((q - x) + - (q - IZR (ZnearestA q))) by ring.
    eapply Rle_trans. apply Rabs_triang. rewrite Rabs_Ropp. unfold u32 in *. lra.
Qed.

(** ** Monotonicity *)
Notation idx := (fun q => f32_to_isize (fround q)).

Lemma idx_nan : forall q : f32, is_nan q = true -> idx q = 0%Z.
Proof. intros [| | |] H; try discriminate. reflexivity. Qed.

Lemma idx_mono : forall a b : f32, is_nan a = false -> is_nan b = false ->
  ext a <= ext b -> (idx a <= idx b)%Z.
Proof.
  intros a b Na Nb H. cbv beta. rewrite !round_to_isize by assumption.
  apply sat_le, ZnearestA_le. assumption.
Qed.

Lemma div_mono : forall a b r : f32, is_nan a = false -> is_nan b = false ->
  is_finite r = true -> 0 < B2R r -> ext a <= ext b ->
  is_nan (fdiv a r) = false /\ is_nan (fdiv b r) = false /\ ext (fdiv a r) <= ext (fdiv b r).
Proof.
  intros a b r Na Nb Fr P H.
  assert (X : forall x : f32, is_nan x = false -> is_finite x = false -> fdiv x r = x).
  { intros x Nx Fx. destruct x as [|s| |]; try discriminate. now apply fdiv_inf_l. }
  destruct (is_finite a) eqn:Fa, (is_finite b) eqn:Fb.
  - destruct (fdiv_ext a r Fa Fr) as [Na' Ea]. lra. destruct (fdiv_ext b r Fb Fr) as [Nb' Eb]. lra.
    repeat split; try assumption. rewrite Ea, Eb. apply clamp_le, rnd_le.
    rewrite !ext_finite in H by assumption. apply Rmult_le_compat_r. apply Rlt_le, Rinv_0_lt_compat. lra. assumption.
  - destruct (fdiv_ext a r Fa Fr) as [Na' Ea]. lra. rewrite (X b Nb Fb).
    repeat split; try assumption. rewrite Ea.
    destruct b as [|[|]| |]; try discriminate.
    + exfalso. rewrite ext_finite in H by assumption. pose proof (B2R_lt_emax a) as L. apply Rabs_lt_inv in L.
      unfold ext in H. lra.
    + apply clamp_bounds.
  - destruct (fdiv_ext b r Fb Fr) as [Nb' Eb]. lra. rewrite (X a Na Fa).
    repeat split; try assumption. rewrite Eb.
    destruct a as [|[|]| |]; try discriminate.
    + apply clamp_bounds.
    + exfalso. rewrite (ext_finite b) in H by assumption. pose proof (B2R_lt_emax b) as L. apply Rabs_lt_inv in L.
      unfold ext in H. lra.
  - rewrite (X a Na Fa), (X b Nb Fb). repeat split; assumption.
Qed.

Lemma sub_mono : forall a b o : f32, is_nan a = false -> is_nan b = false ->
  is_finite o = true -> ext a <= ext b ->
  is_nan (fsub a o) = false /\ is_nan (fsub b o) = false /\ ext (fsub a o) <= ext (fsub b o).
Proof.
  intros a b o Na Nb Fo H.
  assert (X : forall x : f32, is_nan x = false -> is_finite x = false -> fsub x o = x).
  { intros x Nx Fx. destruct x as [|s| |]; try discriminate. now apply fsub_nonnan_inf_l. }
  destruct (is_finite a) eqn:Fa, (is_finite b) eqn:Fb.
  - destruct (fsub_ext a o Fa Fo) as [Na' Ea]. destruct (fsub_ext b o Fb Fo) as [Nb' Eb].
    repeat split; try assumption. rewrite Ea, Eb. apply clamp_le, rnd_le.
    rewrite !ext_finite in H by assumption. lra.
  - destruct (fsub_ext a o Fa Fo) as [Na' Ea]. rewrite (X b Nb Fb).
    repeat split; try assumption. rewrite Ea.
    destruct b as [|[|]| |]; try discriminate.
    + exfalso. rewrite ext_finite in H by assumption. pose proof (B2R_lt_emax a) as L. apply Rabs_lt_inv in L.
      unfold ext in H. lra.
    + apply clamp_bounds.
  - destruct (fsub_ext b o Fb Fo) as [Nb' Eb]. rewrite (X a Na Fa).
    repeat split; try assumption. rewrite Eb.
    destruct a as [|[|]| |]; try discriminate.
    + apply clamp_bounds.
    + exfalso. rewrite (ext_finite b) in H by assumption. pose proof (B2R_lt_emax b) as L. apply Rabs_lt_inv in L.
      unfold ext in H. lra.
  - rewrite (X a Na Fa), (X b Nb Fb). repeat split; assumption.
Qed.

Lemma idx_div_inf : forall s r : f32, r = finf -> idx (fdiv s r) = 0%Z.
Proof. intros [|[|]| |[|]] r ->; reflexivity. Qed.

Lemma idx_div_nonneg : forall r : f32, is_finite r = true -> 0 < B2R r ->
  idx (fdiv finf r) = isize_max /\ idx (fdiv fninf r) = isize_min.
Proof. intros r F P. unfold finf, fninf. cbv beta. rewrite !fdiv_inf_l by assumption. split; reflexivity. Qed.

Lemma idx_range : forall q : f32, (isize_min <= idx q <= isize_max)%Z.
Proof.
  intro q. destruct (is_nan q) eqn:N.
  - rewrite idx_nan by assumption. unfold isize_min, isize_max. lia.
  - cbv beta. rewrite round_to_isize by assumption. pose proof (sat_in (ZnearestA (ext q))) as H.
    unfold in_isize in H. lia.
Qed.

Lemma monotone1 : forall p1 p2 o r : f32, fltb f0 r = true -> fleb p1 p2 = true ->
  (cell_coord_from_point_coord F32A p1 o r <= cell_coord_from_point_coord F32A p2 o r)%Z.
Proof.
  intros p1 p2 o r Hr Hp. unfold cell_coord_from_point_coord.
  cbn [t_to_isize tround tdiv tsub F32A].
  apply fltb_iff in Hr. destruct Hr as (_ & Nr & Pr). change (ext f0) with 0 in Pr.
  apply fleb_iff in Hp. destruct Hp as (N1 & N2 & Hp).
  destruct (is_finite r) eqn:Fr.
  2: { assert (r = finf).
       { destruct r as [|[|]| |]; try discriminate; try reflexivity. simpl in Pr.
         pose proof bp128_pos. lra. }
       pose proof (idx_div_inf (fsub p1 o) r H) as E1. pose proof (idx_div_inf (fsub p2 o) r H) as E2.
       cbv beta in E1, E2. rewrite E1, E2. lia. }
  rewrite ext_finite in Pr by assumption.
  destruct (is_nan o) eqn:No.
  { assert (forall p, idx (fdiv (fsub p o) r) = 0%Z).
    { intro p. apply idx_nan. destruct o; try discriminate. destruct p; reflexivity. }
    cbv beta in H. rewrite !H. lia. }
  destruct (is_finite o) eqn:Fo.
  - destruct (sub_mono p1 p2 o N1 N2 Fo Hp) as (S1 & S2 & S).
    destruct (div_mono _ _ r S1 S2 Fr Pr S) as (D1 & D2 & D).
    now apply idx_mono.
  - destruct (idx_div_nonneg r Fr Pr) as [Imax Imin].
    pose proof (idx_range (fdiv (fsub p1 o) r)) as R1. pose proof (idx_range (fdiv (fsub p2 o) r)) as R2.
    cbv beta in *.
    destruct o as [|[|]| |]; try discriminate.
    + (* offset -inf *)
      destruct (is_finite p2) eqn:F2.
      * replace (fsub p2 (B754_infinity true)) with finf. rewrite Imax. lia.
        destruct p2; try discriminate; reflexivity.
      * destruct p2 as [|[|]| |]; try discriminate.
        -- assert (p1 = B754_infinity true).
           { destruct p1 as [s|[|]| |s m e H]; try discriminate; try reflexivity; exfalso;
             pose proof bp128_pos.
             + simpl in Hp. lra.
             + simpl in Hp. lra.
             + pose proof (B2R_lt_emax (B754_finite s m e H)) as L. apply Rabs_lt_inv in L.
               unfold ext in Hp. lra. }
           subst. lia.
        -- change (fsub (B754_infinity false) (B754_infinity true)) with finf. rewrite Imax. lia.
    + (* offset +inf *)
      destruct (is_finite p1) eqn:F1.
      * replace (fsub p1 (B754_infinity false)) with fninf. rewrite Imin. lia.
        destruct p1; try discriminate; reflexivity.
      * destruct p1 as [|[|]| |]; try discriminate.
        -- change (fsub (B754_infinity true) (B754_infinity false)) with fninf. rewrite Imin. lia.
        -- assert (p2 = B754_infinity false).
           { destruct p2 as [s|[|]| |s m e H]; try discriminate; try reflexivity; exfalso;
             pose proof bp128_pos.
             + simpl in Hp. lra.
             + simpl in Hp. lra.
             + pose proof (B2R_lt_emax (B754_finite s m e H)) as L. apply Rabs_lt_inv in L.
               unfold ext in Hp. lra. }
           subst. lia.
Qed.

(** ** Boundary points *)
Lemma boundary1 : forall (p o r : f32) (k : Z), finite p -> finite o -> res_ok r ->
  (Z.abs k < 2 ^ 22)%Z ->
  real p - real o = (IZR k + / 2) * real r ->
  generic_format radix2 fexp32 (real p - real o) ->
  cell_coord_from_point_coord F32A p o r = if (0 <=? k)%Z then (k + 1)%Z else k.
Proof.
  intros p o r k Fp Fo HR Hk H G. pose proof (res_ok_pos r HR) as P. destruct HR as [Fr Hr].
  unfold finite, real in *.
  assert (B100 : bp 100 * 67108864 = bp 126).
  { change 126%Z with (100 + 26)%Z. rewrite bpow_plus. reflexivity. }
  assert (B126 : bp 126 * 2 = bp 127).
  { change 127%Z with (126 + 1)%Z. rewrite bpow_plus. reflexivity. }
  pose proof (bpow_gt_0 radix2 126) as P126.
  assert (Hkr : Rabs (IZR k) <= 4194304).
  { rewrite <- abs_IZR. change 4194304 with (IZR (2 ^ 22)). apply IZR_le. lia. }
  assert (Hk2 : Rabs (IZR k + / 2) <= 4194305).
  { eapply Rle_trans. apply Rabs_triang. rewrite (Rabs_pos_eq (/ 2)) by lra. lra. }
  destruct (fsub_fin p o Fp Fo) as [Fs Es].
  { apply rnd_abs_lt_128. rewrite H, Rabs_mult, (Rabs_pos_eq (B2R r)) by lra. nra. }
  rewrite round_generic in Es by (auto with typeclass_instances).
  assert (Gk : rnd (IZR k + / 2) = IZR k + / 2).
  { apply round_generic; auto with typeclass_instances.
    change (generic_format radix2 (FLT_exp (-149) 24) (IZR k + / 2)).
    apply generic_format_FLT. exists (Float radix2 (2 * k + 1) (-1)).
    - unfold F2R, Fnum, Fexp. rewrite plus_IZR, mult_IZR. unfold bpow; simpl. lra.
    - unfold Fnum. change (radix2 ^ 24)%Z with (2 ^ 24)%Z. lia.
    - simpl. lia. }
  assert (Ediv : B2R (fsub p o) / B2R r = IZR k + / 2).
  { rewrite Es, H. field. lra. }
  destruct (fdiv_fin (fsub p o) r Fs Fr) as [Fq Eq]. lra.
  { rewrite Ediv. apply rnd_abs_lt_128. eapply Rle_trans. apply Hk2.
    apply Rle_trans with (bp 30). change (bp 30) with 1073741824. lra. apply bpow_le; lia. }
  rewrite Ediv, Gk in Eq.
  unfold cell_coord_from_point_coord. cbn [t_to_isize tround tdiv tsub F32A].
  rewrite round_to_isize by now apply is_finite_not_nan. rewrite ext_finite, Eq by assumption.
  assert (Hfl : Zfloor (IZR k + / 2) = k).
  { apply Zfloor_imp. rewrite plus_IZR. lra. }
  assert (Hce : Zceil (IZR k + / 2) = (k + 1)%Z).
  { apply Zceil_imp. rewrite minus_IZR, plus_IZR. lra. }
  replace (ZnearestA (IZR k + / 2)) with (if (0 <=? k)%Z then (k + 1)%Z else k).
  { destruct (0 <=? k)%Z; apply sat_small; lia. }
  unfold Znearest. rewrite Hfl, Hce.
  rewrite Rcompare_Eq by lra. reflexivity.
Qed.

(** ** Per-axis resolution *)
Lemma combine_repeat_pfc : forall (c : cell) (o : point) r,
  point_from_cell_n F32A c o (repeat r (length c)) = point_from_cell F32A c o r.
Proof.
  unfold point_from_cell_n, point_from_cell.
  induction c as [|x c IH]; intros [|y o] r; try reflexivity.
  cbn [combine length repeat map2 fst snd]. f_equal. apply IH.
Qed.
Lemma combine_repeat_cfp : forall (p o : point) r,
  cell_from_point_n F32A p o (repeat r (length p)) = cell_from_point F32A p o r.
Proof.
  unfold cell_from_point_n, cell_from_point.
  induction p as [|x c IH]; intros [|y o] r; try reflexivity.
  cbn [combine length repeat map2 fst snd]. f_equal. apply IH.
Qed.

Lemma cb_n_scalar : forall (cb : cell_bounds) r, length (cmin cb) = length (cmax cb) ->
  bounds_from_cell_bounds_n cb (repeat r (length (cmin cb))) = bounds_from_cell_bounds cb r.
Proof.
  intros cb r L. unfold bounds_from_cell_bounds_n, bounds_from_cell_bounds.
  rewrite combine_repeat_pfc. rewrite L. now rewrite combine_repeat_pfc.
Qed.

Lemma omap_length : forall {A B} (f : A -> outcome B) l l', omap f l = Ret l' -> length l' = length l.
Proof.
  intros A B f. induction l as [|x l IH]; intros l' H; cbn in H.
  - injection H as <-. reflexivity.
  - destruct (f x); cbn in H; try discriminate.
    destruct (omap f l); cbn in H; try discriminate.
    injection H as <-. cbn. f_equal. now apply IH.
Qed.

Lemma size_n_scalar : forall (size offset : cell) r, length size = length offset ->
  bounds_from_size_cells_n size (repeat r (length offset)) offset
  = bounds_from_size_cells size r offset.
Proof.
  intros size offset r L. unfold bounds_from_size_cells_n, bounds_from_size_cells, cell_add.
  destruct (omap _ (combine (cell_origin (length offset)) offset)) as [mn| |] eqn:E1; cbn [obind]; try reflexivity.
  destruct (omap _ (combine size offset)) as [mx| |] eqn:E2; cbn [obind]; try reflexivity.
  apply omap_length in E1. apply omap_length in E2. rewrite combine_length in E1, E2.
  unfold cell_origin in E1. rewrite repeat_length in E1.
  f_equal. rewrite <- cb_n_scalar by (cbn; lia). cbn [cmin]. f_equal. f_equal. lia.
Qed.

(** ** Totality *)
Lemma ccp_total : forall p o r : f32,
  let q := fdiv (fsub p o) r in
  let c := cell_coord_from_point_coord F32A p o r in
  (isize_min <= c <= isize_max)%Z /\
  (is_nan q = true -> c = 0%Z) /\
  (finite q -> Rabs (real q) <= bpow radix2 62 -> Rabs (IZR c - real q) <= / 2) /\
  (fleb (f32_of_Z (2 ^ 63)) q = true -> c = isize_max) /\
  (fleb q (f32_of_Z (- 2 ^ 63)) = true -> c = isize_min).
Proof.
  intros p o r q c.
  assert (E : c = idx q) by reflexivity. clearbody q c. subst c.
  assert (V : forall n, ZnearestA (IZR n) = n).
  { intro n. apply Znearest_imp. unfold Rminus. rewrite Rplus_opp_r, Rabs_R0. lra. }
  assert (G : forall n, n = (2 ^ 63)%Z \/ n = (- 2 ^ 63)%Z ->
            is_nan (f32_of_Z n) = false /\ ext (f32_of_Z n) = IZR n).
  { intros n Hn. destruct (f32_of_Z_isize n) as [F E]. lia.
    split. now apply is_finite_not_nan. rewrite ext_finite, E by assumption.
    assert (B : rnd (bp 63) = bp 63).
    { apply round_generic; auto with typeclass_instances. apply generic_format_bpow.
      unfold SpecFloat.fexp, SpecFloat.emin. lia. }
    destruct Hn as [-> | ->].
    - exact B.
    - change (- 2 ^ 63)%Z with (Z.opp (2 ^ 63)). rewrite opp_IZR. change (IZR (2 ^ 63)) with (bp 63).
      rewrite round_NE_opp. now rewrite B. }
  split; [apply idx_range|]. split; [apply idx_nan|]. split; [|split].
  - intros F B. unfold finite, real in *. rewrite round_to_isize by now apply is_finite_not_nan.
    rewrite ext_finite by assumption. rewrite sat_small.
    + rewrite Rabs_minus_sym. apply Znearest_half.
    + change (bp 62) with (IZR (2 ^ 62)) in B. apply Rabs_le_inv in B. destruct B as [B1 B2].
      apply ZnearestA_le in B1, B2. rewrite <- opp_IZR in B1. rewrite V in B1, B2. lia.
  - intro H. apply fleb_iff in H. destruct H as (_ & N & H). destruct (G (2 ^ 63)%Z) as [_ E]. now left.
    rewrite E in H. rewrite round_to_isize by assumption. apply ZnearestA_le in H. rewrite V in H.
    unfold sat, isize_min, isize_max. lia.
  - intro H. apply fleb_iff in H. destruct H as (N & _ & H). destruct (G (- 2 ^ 63)%Z) as [_ E]. now right.
    rewrite E in H. rewrite round_to_isize by assumption. apply ZnearestA_le in H. rewrite V in H.
    unfold sat, isize_min, isize_max. lia.
Qed.

Lemma nth_map2 : forall {A B C} (f : A -> B -> C) l m i a b c, length l = length m ->
  (i < length l)%nat -> nth i (map2 f l m) c = f (nth i l a) (nth i m b).
Proof.
  intros A B C f. induction l as [|x l IH]; intros [|y m] i a b c L H; cbn in *; try lia.
  destruct i; [reflexivity|]. apply IH; lia.
Qed.
Lemma map2_length : forall {A B C} (f : A -> B -> C) l m, length l = length m ->
  length (map2 f l m) = length l.
Proof. intros A B C f. induction l; intros [|y m] L; cbn in *; try lia. now rewrite IHl by lia. Qed.

Lemma cell_from_point_coords : forall (p o : point) r, length p = length o ->
  length (cell_from_point F32A p o r) = length p /\
  forall i, (i < length p)%nat ->
    nth i (cell_from_point F32A p o r) 0%Z
    = cell_coord_from_point_coord F32A (nth i p f0) (nth i o f0) r.
Proof.
  intros p o r L. unfold cell_from_point. split. now apply map2_length.
  intros i Hi. now rewrite (nth_map2 _ p o i f0 f0).
Qed.

Lemma nearest_point : forall (p o : point) (r : f32), res_ok r -> length p = length o ->
  (forall i, (i < length p)%nat -> finite (nth i p f0) /\ finite (nth i o f0) /\
     Rabs (real (nth i p f0) - real (nth i o f0)) <= IZR (2 ^ 12) * real r) ->
  forall i, (i < length p)%nat ->
  Rabs (IZR (nth i (cell_from_point F32A p o r) 0%Z) * real r + real (nth i o f0) - real (nth i p f0))
    <= (/ 2 + / 1000) * real r.
Proof.
  intros p o r Hr L H i Hi. destruct (cell_from_point_coords p o r L) as [_ E]. rewrite E by assumption.
  destruct (H i Hi) as (Fp & Fo & D). pose proof (res_ok_pos r Hr) as P. fold (real r) in P.
  change (2 ^ 12)%Z with 4096%Z in D. change (2 ^ 26)%Z with 67108864%Z in *.
  eapply Rle_trans. apply nearest1; try assumption. change (2 ^ 26)%Z with 67108864%Z. lra.
  replace (bp (-22)) with (/ 4194304) by (unfold bpow; simpl; lra). lra.
Qed.

(** The centre of the nearest cell, as computed. *)
Lemma centre1 : forall p o r : f32, res_ok r -> finite p -> finite o ->
  Rabs (real p - real o) <= IZR (2 ^ 11) * real r -> Rabs (real o) <= IZR (2 ^ 11) * real r ->
  let q := point_coord_from_cell_coord F32A (cell_coord_from_point_coord F32A p o r) o r in
  finite q /\ Rabs (real q - real p) <= (/ 2 + / 1000) * real r.
Proof.
  intros p o r HR Fp Fo Hd Ho. pose proof (res_ok_pos r HR) as P. fold (real r) in P. cbv zeta.
  change (2 ^ 11)%Z with 2048%Z in *.
  pose proof (nearest1 p o r HR Fp Fo) as N. cbv zeta in N. change (2 ^ 26)%Z with 67108864%Z in N.
  specialize (N ltac:(lra)). set (c := cell_coord_from_point_coord F32A p o r) in *.
  replace (bp (-22)) with (/ 4194304) in N by (unfold bpow; simpl; lra).
  assert (C : Rabs (IZR c) * real r <= 2049 * real r).
  { rewrite <- (Rabs_pos_eq (real r)) at 1 by lra. rewrite <- Rabs_mult.
    replace (IZR c * real r) with ((IZR c * real r + real o - real p) + (real p - real o)) by ring.
    eapply Rle_trans; [apply Rabs_triang|]. lra. }
  assert (C' : Rabs (IZR c) <= 2049) by (apply Rmult_le_reg_r with (real r); assumption).
  assert (Cz : (Z.abs c <= 2 ^ 24)%Z) by (apply le_IZR; rewrite abs_IZR; eapply Rle_trans; [exact C'|]; apply IZR_le; lia).
  destruct HR as [Fr Hr].
  destruct (pcc_fin c o r Fo Fr Hr Cz) as [Fq Eq]; [unfold real in *; lra|].
  split; [exact Fq|]. unfold real in *.
  replace (B2R (point_coord_from_cell_coord F32A c o r) - B2R p)
    with ((B2R (point_coord_from_cell_coord F32A c o r) - (IZR c * B2R r + B2R o)) + (IZR c * B2R r + B2R o - B2R p)) by ring.
  eapply Rle_trans; [apply Rabs_triang|].
  assert (U : u32 = / 16777216) by (unfold u32; lra). rewrite U in Eq. nra.
Qed.

Lemma centre_point : forall (p o : point) (r : f32), res_ok r -> length p = length o ->
  (forall i, (i < length p)%nat -> finite (nth i p f0) /\ finite (nth i o f0) /\
     Rabs (real (nth i p f0) - real (nth i o f0)) <= IZR (2 ^ 11) * real r /\ Rabs (real (nth i o f0)) <= IZR (2 ^ 11) * real r) ->
  let q : point := point_from_cell F32A (cell_from_point F32A p o r) o r in
  length q = length p /\ forall i, (i < length p)%nat ->
  finite (nth i q f0) /\ Rabs (real (nth i q f0) - real (nth i p f0)) <= (/ 2 + / 1000) * real r.
Proof.
  intros p o r Hr L H q. destruct (cell_from_point_coords p o r L) as [Lc E].
  assert (Lq : length q = length p).
  { unfold q, point_from_cell. rewrite map2_length; [exact Lc|exact (eq_trans Lc L)]. }
  split; [exact Lq|]. intros i Hi. destruct (H i Hi) as (Fp & Fo & D1 & D2).
  assert (Eq : nth i q f0 = point_coord_from_cell_coord F32A (cell_coord_from_point_coord F32A (nth i p f0) (nth i o f0) r) (nth i o f0) r).
  { unfold q, point_from_cell. rewrite <- (E i Hi). apply (nth_map2 (fun c o => point_coord_from_cell_coord F32A c o r)); [exact (eq_trans Lc L)|]. rewrite Lc. exact Hi. }
  rewrite Eq. now apply centre1.
Qed.
