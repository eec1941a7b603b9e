(** Proofs about point clouds. *)
From Coq Require Import ZArith List Bool Reals Lra Lia Psatz.
From Flocq Require Import Core BinarySingleNaN.
From Verif Require Import Base F32 FloatFacts RoundError Arith Geom Spec MathProofs ConverterProofs GeomProofs BoundsProofs.
Open Scope R_scope.

(** ** C17 *)
Lemma concat_length : forall (A : Type) d (l : list (list A)), Forall (fun p => length p = d) l ->
  length (concat l) = (d * length l)%nat.
Proof.
  intros A d l H. induction H; cbn. lia. rewrite app_length, IHForall, H. lia.
Qed.

Lemma chunks_concat : forall (A : Type) d (l : list (list A)), Forall (fun p => length p = d) l ->
  map (fun j => firstn d (skipn (j * d) (concat l))) (seq 0 (length l)) = l.
Proof.
  intros A d l H. induction H as [|p l Hp H IH]; [reflexivity|].
  cbn [length seq map concat]. f_equal.
  - cbn [Nat.mul]. cbn [skipn]. rewrite firstn_app, <- Hp, firstn_all, Nat.sub_diag. cbn [firstn]. now rewrite app_nil_r.
  - rewrite <- IH at 2. rewrite <- seq_shift, map_map. apply map_ext. intro j. f_equal.
    cbn [Nat.mul]. rewrite skipn_app, skipn_all2 by lia. cbn [app]. f_equal. lia.
Qed.

Lemma from_points_points : forall d (pts : list point), Forall (fun p => length p = d) pts ->
  exists m, pc_from_points d pts = Ret m /\ pc_points m = pts /\ pc_num_points m = length pts /\
    nrows m = d /\ matrix_ok m.
Proof.
  intros d pts H. unfold pc_from_points, matrix_from_iterator.
  rewrite (concat_length _ d) by assumption. rewrite Nat.eqb_refl. cbn [oassert obind].
  eexists. split; [reflexivity|]. unfold pc_points, mcol, pc_num_points, matrix_ok. cbn [nrows ncols mdata].
  split; [now apply chunks_concat|]. repeat split. now apply concat_length.
Qed.

(** ** C18 *)
Lemma pc_points_length : forall m, matrix_ok m -> Forall (fun p => length p = nrows m) (pc_points m).
Proof.
  intros m H. unfold pc_points. apply Forall_forall. intros p Hp. apply in_map_iff in Hp.
  destruct Hp as (j & <- & Hj). apply in_seq in Hj. unfold mcol. rewrite firstn_length, skipn_length.
  rewrite H. nia.
Qed.

Lemma add_point_min : forall (v m : f32), is_nan m = false ->
  let m' := if fltb v m then v else m in
  fle m' m /\ (is_nan v = true \/ fle m' v) /\
  (forall x, fle x m -> is_nan v = true \/ fle x v -> fle x m').
Proof.
  intros v m Nm m'. unfold m'. destruct (is_nan v) eqn:Nv.
  - replace (fltb v m) with false. repeat split; auto. now apply fle_refl.
    destruct v; try discriminate. reflexivity.
  - destruct (min_if v m Nv Nm) as (A & B & C & D). repeat split; auto.
    intros x H1 [H2|H2]; [discriminate|]. auto.
Qed.
Lemma add_point_max : forall (v m : f32), is_nan m = false ->
  let m' := if fltb m v then v else m in
  fle m m' /\ (is_nan v = true \/ fle v m') /\
  (forall x, fle m x -> is_nan v = true \/ fle v x -> fle m' x).
Proof.
  intros v m Nm m'. unfold m'. destruct (is_nan v) eqn:Nv.
  - replace (fltb m v) with false. repeat split; auto. now apply fle_refl.
    destruct v; try discriminate. destruct m; reflexivity.
  - destruct (max_if v m Nv Nm) as (A & B & C & D). repeat split; auto.
    intros x H1 [H2|H2]; [discriminate|]. auto.
Qed.

Lemma add_point_min_list : forall p m : point, length p = length m -> no_nan m ->
  let m' := map2 (fun v m => if fltb v m then v else m) p m in
  length m' = length m /\ Forall2 fle m' m /\ Forall2 (fun lo v => is_nan v = true \/ fle lo v) m' p /\
  (forall x, Forall2 fle x m -> Forall2 (fun lo v => is_nan v = true \/ fle lo v) x p -> Forall2 fle x m').
Proof.
  induction p as [|v p IH]; intros [|m mm] L N; try discriminate; cbn.
  - repeat split; auto.
  - injection L as L. pose proof (Forall_inv N) as N1. apply Forall_inv_tail in N.
    destruct (IH mm L N) as (I1 & I2 & I3 & I4). destruct (add_point_min v m N1) as (A & B & C).
    repeat split; try (constructor; assumption); auto.
    intros x Hx Hy. inversion Hx; subst. inversion Hy; subst. constructor; auto.
Qed.
Lemma add_point_max_list : forall p m : point, length p = length m -> no_nan m ->
  let m' := map2 (fun v m => if fltb m v then v else m) p m in
  length m' = length m /\ Forall2 fle m m' /\ Forall2 (fun v hi => is_nan v = true \/ fle v hi) p m' /\
  (forall x, Forall2 fle m x -> Forall2 (fun v hi => is_nan v = true \/ fle v hi) p x -> Forall2 fle m' x).
Proof.
  induction p as [|v p IH]; intros [|m mm] L N; try discriminate; cbn.
  - repeat split; auto.
  - injection L as L. pose proof (Forall_inv N) as N1. apply Forall_inv_tail in N.
    destruct (IH mm L N) as (I1 & I2 & I3 & I4). destruct (add_point_max v m N1) as (A & B & C).
    repeat split; try (constructor; assumption); auto.
    intros x Hx Hy. inversion Hx; subst. inversion Hy; subst. constructor; auto.
Qed.

Lemma add_point_spec : forall d b p, ordered d b -> length p = d ->
  let b' := bounds_add_point b p in
  ordered d b' /\ sub_box b b' /\ covers b' p /\
  (forall c, sub_box b c -> covers c p -> sub_box b' c).
Proof.
  intros d b p O Lp b'. destruct (ordered_no_nan _ _ O) as [N1 N2]. destruct O as (L1 & L2 & O).
  destruct (add_point_min_list p (bmin b)) as (A1 & A2 & A3 & A4); [congruence|assumption|].
  destruct (add_point_max_list p (bmax b)) as (B1 & B2 & B3 & B4); [congruence|assumption|].
  unfold b', bounds_add_point. split; [|split; [|split]].
  - repeat split; cbn; try congruence. eapply Forall2_fle_trans; [exact A2|].
    eapply Forall2_fle_trans; [exact O|exact B2].
  - split; assumption.
  - split; assumption.
  - intros c [C1 C2] [C3 C4]. split; cbn; auto.
Qed.

Lemma sub_box_trans : forall a b c, sub_box a b -> sub_box b c -> sub_box a c.
Proof. intros a b c [A1 A2] [B1 B2]. split; eapply Forall2_fle_trans; eauto. Qed.

Lemma Forall2_covers_lo : forall a b p, Forall2 fle b a -> Forall2 (fun lo v => is_nan v = true \/ fle lo v) a p ->
  Forall2 (fun lo v => is_nan v = true \/ fle lo v) b p.
Proof.
  intros a b p H. revert p. induction H; intros p G; inversion G; subst; constructor; auto.
  match goal with K : _ \/ _ |- _ => destruct K; auto end. right. eapply fle_trans; eauto.
Qed.
Lemma Forall2_covers_hi : forall a b p, Forall2 fle a b -> Forall2 (fun v hi => is_nan v = true \/ fle v hi) p a ->
  Forall2 (fun v hi => is_nan v = true \/ fle v hi) p b.
Proof.
  intros a b p H. revert p. induction H; intros p G; inversion G; subst; constructor; auto.
  match goal with K : _ \/ _ |- _ => destruct K; auto end. right. eapply fle_trans; eauto.
Qed.
Lemma covers_mono : forall a b p, sub_box a b -> covers a p -> covers b p.
Proof.
  intros a b p [S1 S2] [C1 C2]. split; [eapply Forall2_covers_lo|eapply Forall2_covers_hi]; eauto.
Qed.

Lemma fold_points : forall d pts b, ordered d b -> Forall (fun p => length p = d) pts ->
  let b' := fold_left bounds_add_point pts b in
  ordered d b' /\ sub_box b b' /\ (forall p, In p pts -> covers b' p) /\
  (forall c, sub_box b c -> (forall p, In p pts -> covers c p) -> sub_box b' c).
Proof.
  intros d. induction pts as [|p pts IH]; intros b O L b'; unfold b'; cbn.
  - split; [assumption|]. split; [|split; [easy|auto]]. destruct (ordered_no_nan _ _ O) as [N1 N2].
    clear -N1 N2. split; [revert N1; generalize (bmin b)|revert N2; generalize (bmax b)];
    intros l N; induction N; constructor; auto; now apply fle_refl.
  - pose proof (Forall_inv L) as L1. apply Forall_inv_tail in L.
    destruct (add_point_spec d b p O L1) as (A1 & A2 & A3 & A4).
    destruct (IH _ A1 L) as (I1 & I2 & I3 & I4). split; [assumption|].
    split; [eapply sub_box_trans; eauto|]. split.
    + intros q [->|Hq]; auto. eapply covers_mono; eauto.
    + intros c C1 C2. apply I4; auto.
Qed.

Lemma bounds_empty_ordered : forall d, ordered d (bounds_empty d).
Proof.
  intro d. unfold ordered, bounds_empty, origin. cbn. rewrite repeat_length. repeat split.
  induction d; constructor; auto. reflexivity.
Qed.

Lemma pc_bounds_spec : forall m, matrix_ok m ->
  let b := pc_bounds m in
  ordered (nrows m) b /\ inside b (origin (nrows m)) /\
  (forall p, In p (pc_points m) -> covers b p) /\
  (forall c, inside c (origin (nrows m)) -> (forall p, In p (pc_points m) -> covers c p) -> sub_box b c) /\
  bounds_new (bmin b) (bmax b) = Ret b.
Proof.
  intros m H b.
  destruct (fold_points (nrows m) (pc_points m) (bounds_empty (nrows m)) (bounds_empty_ordered _) (pc_points_length m H))
    as (A1 & A2 & A3 & A4).
  split; [exact A1|]. split; [exact A2|]. split; [exact A3|]. split; [exact A4|].
  destruct A1 as (L1 & L2 & O). replace b with (mkBounds (bmin b) (bmax b)) at 3 by (destruct b; reflexivity).
  apply bounds_new_iff; [exact (eq_trans L1 (eq_sym L2))|split; [exact O|reflexivity]].
Qed.

(** ** C19 *)
Lemma transform_points : forall mat m, matrix_ok m -> length mat = S (nrows m) ->
  matrix_ok (pc_transform mat m) /\ pc_num_points (pc_transform mat m) = pc_num_points m /\
  nrows (pc_transform mat m) = nrows m /\
  pc_points (pc_transform mat m) = map (transform_col F32A mat) (pc_points m).
Proof.
  intros mat m H L.
  assert (F : Forall (fun p => length p = nrows m) (map (transform_col F32A mat) (pc_points m))).
  { apply Forall_forall. intros p Hp. apply in_map_iff in Hp. destruct Hp as (q & <- & _).
    unfold transform_col. rewrite removelast_firstn_len, firstn_length, map_length.
    change (@length (list (T F32A)) mat = S (nrows m)) in L. rewrite L. lia. }
  assert (Lp : length (map (transform_col F32A mat) (pc_points m)) = ncols m).
  { rewrite map_length. unfold pc_points. now rewrite map_length, seq_length. }
  split; [|split; [|split]]; try reflexivity.
  - unfold matrix_ok, pc_transform. cbn [mdata nrows ncols].
    etransitivity; [apply (concat_length f32 (nrows m)); exact F|]. f_equal. exact Lp.
  - unfold pc_points at 1. unfold pc_transform at 1 2. unfold mcol. cbn [mdata nrows ncols].
    etransitivity; [|apply (chunks_concat f32 (nrows m)); exact F]. f_equal. f_equal. symmetry. exact Lp.
Qed.

Lemma fmul_1_l : forall x : f32, is_finite x = true -> is_finite (fmul f1 x) = true /\ B2R (fmul f1 x) = B2R x.
Proof.
  intros x F. destruct (fmul_fin f1 x f1_fin F) as [G E].
  { rewrite f1_real, Rmult_1_l, rnd_float. apply B2R_lt_emax. }
  split; [assumption|]. now rewrite E, f1_real, Rmult_1_l, rnd_float.
Qed.

Lemma fadd_0_l : forall x y : f32, is_finite x = true -> is_finite y = true -> B2R x = 0 ->
  is_finite (fadd x y) = true /\ B2R (fadd x y) = B2R y.
Proof.
  intros x y Fx Fy E. destruct (fadd_fin x y Fx Fy) as [G H].
  { rewrite E, Rplus_0_l, rnd_float. apply B2R_lt_emax. }
  split; [assumption|]. now rewrite H, E, Rplus_0_l, rnd_float.
Qed.
Lemma fadd_0_r : forall x y : f32, is_finite x = true -> is_finite y = true -> B2R y = 0 ->
  is_finite (fadd x y) = true /\ B2R (fadd x y) = B2R x.
Proof.
  intros x y Fx Fy E. destruct (fadd_fin x y Fx Fy) as [G H].
  { rewrite E, Rplus_0_r, rnd_float. apply B2R_lt_emax. }
  split; [assumption|]. now rewrite H, E, Rplus_0_r, rnd_float.
Qed.

(** [m * c] in a row of the product when the matrix entry is 0 or 1 *)
Lemma term_0 : forall c : f32, is_finite c = true ->
  is_finite (fmul (fmul f1 f0) c) = true /\ B2R (fmul (fmul f1 f0) c) = 0.
Proof. intros [s|s| |s m e B] H; try discriminate; split; reflexivity. Qed.
Lemma term_1 : forall c : f32, is_finite c = true ->
  is_finite (fmul (fmul f1 f1) c) = true /\ B2R (fmul (fmul f1 f1) c) = B2R c.
Proof.
  intros c H. replace (fmul f1 f1) with f1 by (apply B2SF_inj; now vm_compute). now apply fmul_1_l.
Qed.

Lemma identity_col : forall x y z : f32, finite x -> finite y -> finite z ->
  exists x' y' z', transform_col F32A identity4 [x; y; z] = [x'; y'; z'] /\
    feqb x' x = true /\ feqb y' y = true /\ feqb z' z = true.
Proof.
  intros x y z Fx Fy Fz. unfold transform_col, identity4, gemv_row.
  cbn [map map2 fold_left app removelast tmul tadd tone tzero F32A].
  eexists _, _, _. split; [reflexivity|].
  destruct (term_0 x Fx) as [X0 X0']. destruct (term_1 x Fx) as [X1 X1'].
  destruct (term_0 y Fy) as [Y0 Y0']. destruct (term_1 y Fy) as [Y1 Y1'].
  destruct (term_0 z Fz) as [Z0 Z0']. destruct (term_1 z Fz) as [Z1 Z1'].
  destruct (term_0 f1 f1_fin) as [O0 O0'].
  repeat split; apply feqb_iff.
  - destruct (fmul_1_l _ X1) as [A1 A2]. destruct (fadd_0_l _ _ Y0 A1 Y0') as [B1 B2].
    destruct (fmul_1_l _ B1) as [C1 C2]. destruct (fadd_0_l _ _ Z0 C1 Z0') as [D1 D2].
    destruct (fmul_1_l _ D1) as [E1 E2]. destruct (fadd_0_l _ _ O0 E1 O0') as [G1 G2].
    rewrite !ext_finite by assumption. repeat split; try (apply is_finite_not_nan; assumption). congruence.
  - destruct (fmul_1_l _ X0) as [A1 A2]. rewrite X0' in A2. destruct (fadd_0_r _ _ Y1 A1 A2) as [B1 B2].
    destruct (fmul_1_l _ B1) as [C1 C2]. destruct (fadd_0_l _ _ Z0 C1 Z0') as [D1 D2].
    destruct (fmul_1_l _ D1) as [E1 E2]. destruct (fadd_0_l _ _ O0 E1 O0') as [G1 G2].
    rewrite !ext_finite by assumption. repeat split; try (apply is_finite_not_nan; assumption). congruence.
  - destruct (fmul_1_l _ X0) as [A1 A2]. rewrite X0' in A2. destruct (fadd_0_l _ _ Y0 A1 Y0') as [B1 B2].
    rewrite A2 in B2.
    destruct (fmul_1_l _ B1) as [C1 C2]. rewrite B2 in C2. destruct (fadd_0_r _ _ Z1 C1 C2) as [D1 D2].
    destruct (fmul_1_l _ D1) as [E1 E2]. destruct (fadd_0_l _ _ O0 E1 O0') as [G1 G2].
    rewrite !ext_finite by assumption. repeat split; try (apply is_finite_not_nan; assumption). congruence.
Qed.

Lemma identity_cloud : forall m, matrix_ok m -> nrows m = 3%nat -> Forall finite (mdata m) ->
  Forall2 (fun p q => point_eqb p q = true) (pc_points (pc_transform identity4 m)) (pc_points m).
Proof.
  intros m H R3 F. destruct (transform_points identity4 m H) as (_ & _ & _ & ->). now rewrite R3.
  assert (L : Forall (fun p => length p = 3%nat) (pc_points m)) by (rewrite <- R3; now apply pc_points_length).
  assert (G : Forall (Forall finite) (pc_points m)).
  { apply Forall_forall. intros p Hp. apply in_map_iff in Hp. destruct Hp as (j & <- & _).
    apply Forall_forall. intros x Hx. rewrite Forall_forall in F. apply F.
    unfold mcol in Hx. rewrite <- (firstn_skipn (j * nrows m) (mdata m)). apply in_or_app. right.
    rewrite <- (firstn_skipn (nrows m) (skipn _ _)). apply in_or_app. now left. }
  induction (pc_points m) as [|p l IH]; [constructor|].
  apply Forall_inv in L as Lp. apply Forall_inv in G as Gp. apply Forall_inv_tail in L, G.
  constructor; [|auto]. destruct p as [|x [|y [|z [|]]]]; try discriminate.
  inversion Gp as [|? ? Fx G1]; subst. inversion G1 as [|? ? Fy G2]; subst. inversion G2 as [|? ? Fz _]; subst.
  destruct (identity_col x y z Fx Fy Fz) as (x' & y' & z' & -> & E1 & E2 & E3).
  unfold point_eqb. cbn. rewrite E1, E2, E3. reflexivity.
Qed.

(** Exact arithmetic *)
Lemma transform_exact : forall a b c t p,
  transform_col RealA (homogeneous a b c t) (vec3 p) =
  vec3 (dot3 a p + fst (fst t), dot3 b p + snd (fst t), dot3 c p + snd t).
Proof.
  intros [[a1 a2] a3] [[b1 b2] b3] [[c1 c2] c3] [[t1 t2] t3] [[x y] z].
  unfold transform_col, gemv_row, homogeneous, vec3, dot3.
  cbn [map map2 fold_left app removelast tmul tadd tone tzero RealA xlift2 fst snd].
  assert (X : forall u v : R, u = v -> Fin u = Fin v) by (intros; congruence).
  f_equal; [apply X; ring|f_equal; [apply X; ring|f_equal; apply X; ring]].
Qed.

Lemma rigid_distance : forall a b c t p q, rigid a b c -> exists p' q',
  transform_col RealA (homogeneous a b c t) (vec3 p) = vec3 p' /\
  transform_col RealA (homogeneous a b c t) (vec3 q) = vec3 q' /\ dist2 p' q' = dist2 p q.
Proof.
  intros a b c t p q H. eexists _, _. split; [apply transform_exact|]. split; [apply transform_exact|].
  destruct a as [[a1 a2] a3], b as [[b1 b2] b3], c as [[c1 c2] c3], t as [[t1 t2] t3], p as [[x y] z], q as [[u v] w].
  unfold rigid, dot3, dist2 in *. cbn [fst snd] in *. destruct H as (H1 & H2 & H3 & H4 & H5 & H6).
  transitivity ((x-u)*(x-u)*(a1*a1+b1*b1+c1*c1) + (y-v)*(y-v)*(a2*a2+b2*b2+c2*c2) + (z-w)*(z-w)*(a3*a3+b3*b3+c3*c3)
    + 2*(x-u)*(y-v)*(a1*a2+b1*b2+c1*c2) + 2*(x-u)*(z-w)*(a1*a3+b1*b3+c1*c3) + 2*(y-v)*(z-w)*(a2*a3+b2*b3+c2*c3)).
  ring. rewrite H1, H2, H3, H4, H5, H6. ring.
Qed.

Lemma rigid_inverse : forall a b c t p, rigid a b c ->
  let '(a1, a2, a3) := a in let '(b1, b2, b3) := b in let '(c1, c2, c3) := c in
  transform_col RealA (homogeneous (a1, b1, c1) (a2, b2, c2) (a3, b3, c3)
     (- dot3 (a1, b1, c1) t, - dot3 (a2, b2, c2) t, - dot3 (a3, b3, c3) t))
    (transform_col RealA (homogeneous a b c t) (vec3 p)) = vec3 p.
Proof.
  intros a b c t p H.
  destruct a as [[a1 a2] a3], b as [[b1 b2] b3], c as [[c1 c2] c3]. rewrite !transform_exact.
  destruct t as [[t1 t2] t3], p as [[x y] z]. unfold rigid, dot3 in *. cbn [fst snd] in *. 
  destruct H as (H1 & H2 & H3 & H4 & H5 & H6). unfold vec3.
  assert (X : forall u v : R, u = v -> Fin u = Fin v) by (intros; congruence).
  f_equal; [apply X|f_equal; [apply X|f_equal; apply X]].
  - transitivity (x*(a1*a1+b1*b1+c1*c1) + y*(a1*a2+b1*b2+c1*c2) + z*(a1*a3+b1*b3+c1*c3)). ring.
    rewrite H1, H4, H5. ring.
  - transitivity (x*(a1*a2+b1*b2+c1*c2) + y*(a2*a2+b2*b2+c2*c2) + z*(a2*a3+b2*b3+c2*c3)). ring.
    rewrite H2, H4, H6. ring.
  - transitivity (x*(a1*a3+b1*b3+c1*c3) + y*(a2*a3+b2*b3+c2*c3) + z*(a3*a3+b3*b3+c3*c3)). ring.
    rewrite H3, H5, H6. ring.
Qed.
