(** C90, C92: f32 rays that stay away from corners. *)
From Coq Require Import ZArith List Bool Reals Lra Lia Psatz.
From Flocq Require Import Core BinarySingleNaN.
From Verif Require Import Base F32 FloatFacts RoundError Arith Geom RayCaster Spec SpecBack RayProofs ConverterProofs GridProofs CastProofs IdealRay RayReach BackProofs.
Open Scope R_scope.

(** ** Two cells touched by the same segment *)
(** Two growing lines, each within [h] of zero at the time of the other or beyond. *)
Lemma meet_half : forall h p a q c u v, 0 < a -> 0 < c -> u <= v -> - h <= p + u * a -> p + v * a <= h -> - h <= q + v * c -> q + u * c <= h ->
  exists w, u <= w <= v /\ Rabs (p + w * a) <= h /\ Rabs (q + w * c) <= h.
Proof.
  intros h p a q c u v Ha Hc UV A B C D. destruct (Rle_or_lt (- h) (q + u * c)) as [E|E].
  - exists u. split; [lra|]. split; apply Rabs_le; [|lra]. split; [lra|]. nra.
  - set (w := (- h - q) / c). assert (W : q + w * c = - h) by (unfold w; field; lra). assert (W1 : u <= w <= v) by (split; nra).
    exists w. split; [exact W1|]. split; apply Rabs_le; [|split; nra]. split; nra.
Qed.

Section Unique.
Context (d : nat) (o e b : list R) (r g : R) (Lo : length o = d) (Le : length e = d) (Hr : 0 < r).
Context (NC : no_corner_near g b r o e) (oc ec : cell) (Loc : length oc = d) (Lec : length ec = d).
Context (Mono : forall i, (i < d)%nat -> (nth i o 0 = nth i e 0 -> nth i oc 0%Z = nth i ec 0%Z) /\ (nth i o 0 < nth i e 0 -> (nth i oc 0 <= nth i ec 0)%Z) /\ (nth i e 0 < nth i o 0 -> (nth i ec 0 <= nth i oc 0)%Z)).

Lemma seg_at : forall u i, (i < d)%nat -> nth i (seg o e u) 0 = nth i o 0 + u * (nth i e 0 - nth i o 0).
Proof. intros u i Hi. unfold seg. exact (nth_map2 _ o e i 0 0 0 ltac:(lia) ltac:(lia)). Qed.

(** On an axis on which [x] is ahead of [y] there is a border between them. *)
Lemma border_between : forall x y u v i, between oc ec x -> between oc ec y -> (i < d)%nat ->
  in_grown_cell g b r x (seg o e u) -> in_grown_cell g b r y (seg o e v) ->
  (Z.abs (nth i x 0%Z - nth i ec 0%Z) < Z.abs (nth i y 0%Z - nth i ec 0%Z))%Z ->
  nth i o 0 <> nth i e 0 /\ exists k s, (s = 1 \/ s = -1) /\ 0 < s * (nth i e 0 - nth i o 0) /\
    - (g * r) <= s * (nth i (seg o e u) 0 - (nth i b 0 + (IZR k + / 2) * r)) /\ s * (nth i (seg o e v) 0 - (nth i b 0 + (IZR k + / 2) * r)) <= g * r.
Proof.
  intros x y u v i [Lx Bx] [Ly By] Hi Cx Cy D. specialize (Bx i ltac:(lia)). specialize (By i ltac:(lia)). specialize (Cx i ltac:(lia)). specialize (Cy i ltac:(lia)). destruct (Mono i Hi) as (M0 & M1 & M2).
  rewrite !seg_at by assumption. rewrite seg_at in Cx by assumption. rewrite seg_at in Cy by assumption. apply Rabs_le_inv in Cx, Cy.
  set (X := nth i x 0%Z) in *. set (Y := nth i y 0%Z) in *. set (P := nth i o 0) in *. set (Q := nth i e 0) in *. set (B := nth i b 0) in *.
  destruct (Rtotal_order P Q) as [S|[S|S]].
  - specialize (M1 S). split; [lra|]. assert (XY : (Y + 1 <= X)%Z) by lia. apply IZR_le in XY. rewrite plus_IZR in XY. pose proof (Rmult_le_compat_r r _ _ ltac:(lra) XY) as XR. exists Y, 1. split; [auto|]. split; [lra|]. split; lra.
  - specialize (M0 S). lia.
  - specialize (M2 S). split; [lra|]. assert (XY : (X + 1 <= Y)%Z) by lia. apply IZR_le in XY. rewrite plus_IZR in XY. pose proof (Rmult_le_compat_r r _ _ ltac:(lra) XY) as XR. exists X, (-1). split; [auto|]. split; [lra|]. split; lra.
Qed.

Lemma one_place_near : forall x y u v, between oc ec x -> between oc ec y -> manhattan x ec = manhattan y ec -> 0 <= u <= 1 -> 0 <= v <= 1 ->
  in_grown_cell g b r x (seg o e u) -> in_grown_cell g b r y (seg o e v) -> x = y.
Proof.
  intros x y u v Bx By M Hu Hv Cx Cy. destruct (list_eq_dec Z.eq_dec x y) as [E|N]; [exact E|exfalso].
  destruct (differ oc ec x y ltac:(congruence) Bx By M N) as (i & j & Hi & Hj & Di & Dj). rewrite Loc in Hi, Hj.
  assert (NE : i <> j) by (intros ->; lia).
  destruct (border_between x y u v i Bx By Hi Cx Cy Di) as (Oi & k & s & S & Si & I1 & I2).
  destruct (border_between y x v u j By Bx Hj Cy Cx Dj) as (Oj & l & t & T & Tj & J1 & J2).
  assert (W : exists w, 0 <= w <= 1 /\ Rabs (s * (nth i (seg o e w) 0 - (nth i b 0 + (IZR k + / 2) * r))) <= g * r /\ Rabs (t * (nth j (seg o e w) 0 - (nth j b 0 + (IZR l + / 2) * r))) <= g * r).
  { rewrite seg_at in I1, I2, J1, J2 by assumption.
    set (a := s * (nth i e 0 - nth i o 0)) in *. set (p := s * (nth i o 0 - (nth i b 0 + (IZR k + / 2) * r))). set (c := t * (nth j e 0 - nth j o 0)) in *. set (q := t * (nth j o 0 - (nth j b 0 + (IZR l + / 2) * r))).
    assert (PA : forall w, s * (nth i o 0 + w * (nth i e 0 - nth i o 0) - (nth i b 0 + (IZR k + / 2) * r)) = p + w * a) by (intro w; unfold p, a; ring).
    assert (QC : forall w, t * (nth j o 0 + w * (nth j e 0 - nth j o 0) - (nth j b 0 + (IZR l + / 2) * r)) = q + w * c) by (intro w; unfold q, c; ring).
    rewrite PA in I1, I2. rewrite QC in J1, J2.
    destruct (Rle_or_lt u v) as [UV|UV].
    - destruct (meet_half (g * r) p a q c u v Si Tj UV I1 I2 J1 J2) as (w & W & W1 & W2). exists w. rewrite !seg_at, PA, QC by assumption. split; [lra|auto].
    - destruct (meet_half (g * r) q c p a v u Tj Si ltac:(lra) J1 J2 I1 I2) as (w & W & W1 & W2). exists w. rewrite !seg_at, PA, QC by assumption. split; [lra|auto]. }
  destruct W as (w & W & W1 & W2).
  assert (U : forall s z, s = 1 \/ s = -1 -> Rabs (s * z) = Rabs z) by (intros s' z [-> | ->]; [now rewrite Rmult_1_l|replace (-1 * z) with (- z) by ring; apply Rabs_Ropp]).
  rewrite U in W1, W2 by assumption. exact (NC w i j k l W ltac:(lia) ltac:(lia) NE Oi Oj W1 W2).
Qed.
End Unique.

(** ** Where the cells of an f32 ray are *)
Lemma split_at_nth : forall (A : Type) (l : list A) k x, nth_error l k = Some x -> exists l1 l2, l = l1 ++ x :: l2 /\ length l1 = k.
Proof. intros A l k x H. apply nth_error_split in H. exact H. Qed.
Lemma connected_count : forall sg c l k x, connected sg (c :: l) -> nth_error (c :: l) k = Some x -> manhattan c x = Z.of_nat k.
Proof.
  intros sg c l k x C H. destruct k as [|k]; cbn [nth_error] in H; [injection H as <-; apply manhattan_refl|].
  destruct (split_at_nth _ _ _ _ H) as (l1 & l2 & -> & L). replace (c :: l1 ++ x :: l2) with ((c :: l1 ++ [x]) ++ l2) in C by (cbn; now rewrite <- app_assoc).
  apply connected_app in C. destruct C as [C _]. apply connected_mono in C. destruct C as (_ & _ & ->). lia.
Qed.

Lemma f32_places : forall fuel d o e b r m rc c, (d = 2 \/ d = 3)%nat -> length o = d -> length e = d -> length b = d -> cast_ray F32A fuel o e b r m = Ret (rc, Some c) ->
  let oc := cell_from_point F32A o b r in let ec := cell_from_point F32A e b r in
  c = ec /\ Z.of_nat (length rc) = manhattan oc ec /\ forall k x, nth_error (rc ++ [ec]) k = Some x -> between oc ec x /\ manhattan x ec = (manhattan oc ec - Z.of_nat k)%Z.
Proof.
  intros fuel d o e b r m rc c Hd Lo Le Lb R oc ec.
  destruct (cast_completed fuel d o e b r m rc c Hd Lo Le Lb R) as (-> & _ & _ & HL & _). fold oc ec in HL |- *. split; [reflexivity|]. split; [exact HL|].
  assert (Loc : length oc = d) by (unfold oc, cell_from_point; now apply map2_len). assert (Lec : length ec = d) by (unfold ec, cell_from_point; now apply map2_len).
  destruct (cast_returns F32A f32_inf_add f32_sig _ _ _ _ _ _ _ _ _ Hd Lo Le Lb R) as [(E & -> & _)|(N & path & -> & _ & _ & _ & C2)].
  - fold oc ec in E. intros [|[|k]] x X; cbn in X; try discriminate X. injection X as <-. rewrite E. split; [split; [reflexivity|]; intros; lia|]. rewrite manhattan_refl. reflexivity.
  - fold oc ec in C2, HL |- *. intros k x X. assert (B : between oc ec x) by (apply (connected_between _ _ _ _ _ C2); exact (nth_error_In _ _ X)). split; [exact B|].
    cbn [app] in X. pose proof (connected_count _ oc (path ++ [ec]) k x C2 X) as Mx. pose proof (between_sum oc ec x ltac:(congruence) B). lia.
Qed.

Lemma nth_real : forall (p : point) i, nth i (map real p) 0 = real (nth i p f0).
Proof. intros p i. change 0 with (real f0). apply map_nth. Qed.
Lemma fleb_of_real : forall x y : f32, finite x -> finite y -> real x <= real y -> fleb x y = true.
Proof. intros x y Fx Fy H. unfold fleb. rewrite Bleb_correct by assumption. now apply Rle_bool_true. Qed.
Lemma f32_mono : forall d (o e b : point) r, length o = d -> length e = d -> length b = d -> Forall finite o -> Forall finite e -> finite r -> 0 < real r ->
  forall i, (i < d)%nat -> let oc := cell_from_point F32A o b r in let ec := cell_from_point F32A e b r in
  (nth i (map real o) 0 = nth i (map real e) 0 -> nth i oc 0%Z = nth i ec 0%Z) /\ (nth i (map real o) 0 < nth i (map real e) 0 -> (nth i oc 0 <= nth i ec 0)%Z) /\ (nth i (map real e) 0 < nth i (map real o) 0 -> (nth i ec 0 <= nth i oc 0)%Z).
Proof.
  intros d o e b r Lo Le Lb Fo Fe Fr Hr i Hi oc ec. rewrite !nth_real.
  assert (R0 : fltb f0 r = true). { unfold fltb. rewrite Bltb_correct; [apply Rlt_bool_true; exact Hr|reflexivity|exact Fr]. }
  assert (Fx : finite (nth i o f0)) by (rewrite Forall_forall in Fo; apply Fo, nth_In; lia). assert (Fy : finite (nth i e f0)) by (rewrite Forall_forall in Fe; apply Fe, nth_In; lia).
  unfold oc, ec. rewrite (proj2 (cell_from_point_coords o b r ltac:(lia)) i ltac:(lia)), (proj2 (cell_from_point_coords e b r ltac:(lia)) i ltac:(lia)).
  assert (LE : forall x y, finite x -> finite y -> real x <= real y -> (cell_coord_from_point_coord F32A x (nth i b f0) r <= cell_coord_from_point_coord F32A y (nth i b f0) r)%Z).
  { intros x y Hx Hy H. apply monotone1; [exact R0|]. now apply fleb_of_real. }
  split; [|split].
  - intro E. apply Z.le_antisymm; apply LE; try assumption; lra.
  - intro E. apply LE; try assumption; lra.
  - intro E. apply LE; try assumption; lra.
Qed.

Lemma Forall2_swap : forall (A : Type) (P Q : A -> A -> Prop) l m, (forall x y, P x y -> Q y x) -> Forall2 P l m -> Forall2 Q m l.
Proof. intros A P Q l m H F. induction F; constructor; auto. Qed.
Lemma short_back : forall r o e b, ray_short r o e b -> ray_short r e o b.
Proof.
  intros r o e b ((F & B & A1 & A2 & A3 & A4) & B1 & B2 & B3 & B4).
  split; [split; [exact F|]; split; [exact B|]; split; [exact A2|]; split; [exact A1|]; split; [exact A3|]|split; [exact B2|]; split; [exact B1|]; split; [exact B3|]].
  - revert A4. apply Forall2_swap. intros x y [H|H]; [left; congruence|right]. rewrite Rabs_minus_sym. exact H.
  - revert B4. apply Forall2_swap. intros x y H. rewrite Rabs_minus_sym. exact H.
Qed.
Lemma short_finite : forall r o e b, ray_short r o e b -> finite r /\ 0 < real r /\ Forall finite o /\ Forall finite e /\ Forall finite b.
Proof.
  intros r o e b ((F & B & A1 & A2 & A3 & _) & _). split; [exact F|]. split; [pose proof (bpow_gt_0 radix2 (-30)); lra|].
  split; [|split]; [revert A1|revert A2|revert A3]; apply Forall_impl; intros x H; exact (proj1 H).
Qed.

Lemma f32_back : forall d (o e b : point) (r : f32), (d = 2 \/ d = 3)%nat -> length o = d -> length e = d -> length b = d ->
  ray_short r o e b -> end_clear (/ 16) r o e b -> end_clear (/ 16) r e o b -> no_corner_near (/ 16) (map real b) (real r) (map real o) (map real e) ->
  let oc := cell_from_point F32A o b r in let ec := cell_from_point F32A e b r in
  forall fuel m, fltb f0 m = false -> (manhattan oc ec <= Z.of_nat fuel)%Z ->
  exists path path', cast_ray F32A fuel o e b r m = Ret (path, Some ec) /\ cast_ray F32A fuel e o b r m = Ret (path', Some oc) /\ path' ++ [oc] = rev (path ++ [ec]).
Proof.
  intros d o e b r Hd Lo Le Lb HS C1 C2 NC oc ec fuel m Hm F.
  destruct (reach_cast d Hd o e b r Lo Le Lb HS C1 fuel m Hm F) as (path & C & _ & T & _).
  assert (F' : (manhattan ec oc <= Z.of_nat fuel)%Z) by (rewrite manhattan_sym; exact F).
  destruct (reach_cast d Hd e o b r Le Lo Lb (short_back _ _ _ _ HS) C2 fuel m Hm F') as (path' & C' & _ & T' & _).
  fold oc ec in C, T, C', T'. exists path, path'. split; [exact C|]. split; [exact C'|].
  destruct (f32_places _ d _ _ _ _ _ _ _ Hd Lo Le Lb C) as (_ & L & P). destruct (f32_places _ d _ _ _ _ _ _ _ Hd Le Lo Lb C') as (_ & L' & P'). fold oc ec in L, P, L', P'.
  destruct (short_finite _ _ _ _ HS) as (Fr & Pr & Fo & Fe & _).
  assert (LL : length (path' ++ [oc]) = length (path ++ [ec])). { rewrite !app_length. rewrite manhattan_sym in L'. cbn. lia. }
  assert (Loc : length oc = d) by (unfold oc, cell_from_point; now apply map2_len). assert (Lec : length ec = d) by (unfold ec, cell_from_point; now apply map2_len).
  apply (nth_ext _ _ [] []); [rewrite rev_length; exact LL|]. intros k Hk. assert (Hk' : (k < length (path ++ [ec]))%nat) by exact (eq_ind _ (fun n => (k < n)%nat) Hk _ LL). rewrite rev_nth by exact Hk'. set (n := (length (path ++ [ec]) - Datatypes.S k)%nat).
  assert (Hn : (n < length (path ++ [ec]))%nat) by lia.
  pose proof (nth_error_nth' _ [] Hn) as N1. pose proof (nth_error_nth' _ [] Hk) as N2.
  destruct (P n _ N1) as (B1 & M1). destruct (P' k _ N2) as (B2 & M2). destruct (T _ (nth_error_In _ _ N1)) as (u & Hu & T1). destruct (T' _ (nth_error_In _ _ N2)) as (v & Hv & T2).
  rewrite seg_back in T2 by (rewrite !map_length; congruence). apply between_sym in B2; [|congruence]. symmetry.
  refine (one_place_near d (map real o) (map real e) (map real b) (real r) (/ 16) _ _ Pr NC oc ec Loc Lec _ _ _ u (1 - v) B1 B2 _ Hu _ T1 T2); [rewrite map_length; exact Lo|rewrite map_length; exact Le| | |lra].
  - exact (f32_mono d o e b r Lo Le Lb Fo Fe Fr Pr).
  - rewrite (manhattan_sym (nth k _ _) oc) in M2. rewrite (manhattan_sym ec oc) in M2.
    assert (M3 : manhattan (nth k (path' ++ [oc]) []) ec = Z.of_nat k) by (apply (between_rest oc ec); [congruence|exact B2|exact M2]).
    transitivity (manhattan oc ec - Z.of_nat n)%Z; [exact M1|]. symmetry. transitivity (Z.of_nat k); [exact M3|]. unfold n. rewrite app_length in *. cbn [length] in *. lia.
Qed.

(** ** Exact and f32 rays *)
Lemma cell_agrees : forall d (p b : point) r, length p = d -> length b = d -> res_ok r -> Forall (within_cells (2 ^ 15) r) p -> Forall (within_cells (2 ^ 15) r) b ->
  off_borders (/ 16) (map real b) (real r) (map real p) -> nearest_cell (map real b) (real r) (map real p) = cell_from_point F32A p b r.
Proof.
  intros d p b r Lp Lb HR Wp Wb O. assert (Pr : 0 < real r) by (destruct HR as (_ & B); pose proof (bpow_gt_0 radix2 (-100)); lra).
  assert (LL : length (nearest_cell (map real b) (real r) (map real p)) = d) by (unfold nearest_cell; apply map2_len; rewrite map_length; assumption).
  destruct (cell_from_point_coords p b r ltac:(congruence)) as [LC NC].
  apply (nth_ext _ _ 0%Z 0%Z); [congruence|]. intros i Hi. rewrite LL in Hi. rewrite NC by lia.
  unfold nearest_cell. rewrite (nth_map2 _ _ _ i 0 0 0%Z) by (rewrite !map_length; lia). specialize (O i). rewrite map_length in O. rewrite !nth_real in *.
  rewrite Forall_forall in Wp, Wb. destruct (Wp (nth i p f0) ltac:(apply nth_In; lia)) as [Fp Bp]. destruct (Wb (nth i b f0) ltac:(apply nth_In; lia)) as [Fb Bb].
  set (x := nth i p f0) in *. set (y := nth i b f0) in *.
  assert (D : Rabs (real x - real y) <= 65536 * real r). { apply Rabs_le. apply Rabs_le_inv in Bp, Bb. change (IZR (2 ^ 15)) with 32768 in Bp, Bb. lra. }
  pose proof (nearest1 x y r HR Fp Fb ltac:(change (IZR (2 ^ 26)) with 67108864; lra)) as N. cbv zeta in N.
  set (c := cell_coord_from_point_coord F32A x y r) in *. change (bpow radix2 (-22)) with (/ 4194304) in N.
  assert (N' : Rabs (IZR c * real r + real y - real x) <= (/ 2 + / 64) * real r) by lra. apply Rabs_le_inv in N'.
  pose proof (O c ltac:(lia)) as O1. pose proof (O (c - 1)%Z ltac:(lia)) as O2. rewrite minus_IZR in O2.
  apply Znearest_imp. replace ((real x - real y) / real r - IZR c) with ((real x - real y - IZR c * real r) / real r) by (field; lra).
  unfold Rdiv. rewrite Rabs_mult, (Rabs_pos_eq (/ real r)) by (left; apply Rinv_0_lt_compat; exact Pr). apply (Rmult_lt_reg_r (real r)); [exact Pr|].
  rewrite Rmult_assoc, Rinv_l, Rmult_1_r by lra. apply Rabs_lt.
  unfold Rabs in O1, O2. split; [clear O1; destruct (Rcase_abs _) in O2|clear O2; destruct (Rcase_abs _) in O1]; lra.
Qed.

Lemma off_clear : forall d (o e b : point) r, length e = d -> off_borders (/ 16) (map real b) (real r) (map real e) -> end_clear (/ 16) r o e b.
Proof. intros d o e b r Le O i k Hi _. specialize (O i k). rewrite map_length, !nth_real in O. now apply O. Qed.
Lemma off_inside : forall g b r o e, 0 < g -> 0 < r -> off_borders g b r e -> ends_inside b r o e.
Proof.
  intros g b r o e G R O. unfold ends_inside. set (ec := nearest_cell b r e). intros i Hi. assert (P : 0 < g * r) by nra.
  split; intros _ E; [specialize (O i (nth i ec 0%Z) Hi)|specialize (O i (nth i ec 0%Z - 1)%Z Hi)]; rewrite E in O; [|rewrite minus_IZR in O];
    match type of O with _ <= Rabs ?z => replace z with 0 in O by lra end; rewrite Rabs_R0 in O; lra.
Qed.

Lemma same_ray : forall d (o e b : point) (r : f32), (d = 2 \/ d = 3)%nat -> length o = d -> length e = d -> length b = d -> ray_short r o e b ->
  off_borders (/ 16) (map real b) (real r) (map real o) -> off_borders (/ 16) (map real b) (real r) (map real e) ->
  no_corner_near (/ 16) (map real b) (real r) (map real o) (map real e) ->
  let oc := cell_from_point F32A o b r in let ec := cell_from_point F32A e b r in
  nearest_cell (map real b) (real r) (map real o) = oc /\ nearest_cell (map real b) (real r) (map real e) = ec /\
  forall fuel m m', fltb f0 m = false -> m' <= 0 -> (manhattan oc ec <= Z.of_nat fuel)%Z ->
  exists path, cast_ray F32A fuel o e b r m = Ret (path, Some ec) /\
    cast_ray RealA fuel (map Fin (map real o)) (map Fin (map real e)) (map Fin (map real b)) (Fin (real r)) (Fin m') = Ret (path, Some ec).
Proof.
  intros d o e b r Hd Lo Le Lb HS O1 O2 NC oc ec. destruct (short_finite _ _ _ _ HS) as (Fr & Pr & Fo & Fe & _).
  assert (HR : res_ok r). { destruct HS as ((_ & B & _) & _). split; [exact Fr|]. split; [apply Rle_trans with (bpow radix2 (-30)); [apply bpow_le; lia|lra]|apply Rle_trans with (bpow radix2 30); [lra|apply bpow_le; lia]]. }
  destruct HS as (HS & W1 & W2 & W3 & W4). assert (HS' : ray_short r o e b) by (split; [exact HS|auto]).
  assert (E1 : nearest_cell (map real b) (real r) (map real o) = oc) by (apply (cell_agrees d); assumption).
  assert (E2 : nearest_cell (map real b) (real r) (map real e) = ec) by (apply (cell_agrees d); assumption).
  split; [exact E1|]. split; [exact E2|]. intros fuel m m' Hm Hm' F.
  destruct (reach_cast d Hd o e b r Lo Le Lb HS' (off_clear d o e b r Le O2) fuel m Hm F) as (path & C & _ & T & _). fold oc ec in C, T.
  destruct (f32_places _ d _ _ _ _ _ _ _ Hd Lo Le Lb C) as (_ & L & P). fold oc ec in L, P.
  assert (M : forall (p : point) n, length p = n -> length (map real p) = n) by (intros; now rewrite map_length).
  destruct (ideal_places_cast d Hd (map real o) (map real e) (map real b) (real r) (M _ _ Lo) (M _ _ Le) (M _ _ Lb) Pr) with (fuel := fuel) (m := m') as (path' & C' & L' & P').
  { apply (off_inside (/ 16)); [lra|exact Pr|exact O2]. }
  { rewrite E1. apply cfp_in_isize. } { rewrite E2. apply cfp_in_isize. } { exact Hm'. } { rewrite E1, E2. exact F. }
  unfold placed in P'. rewrite E1, E2 in L', P'. rewrite E2 in C'.
  assert (LL : length (path ++ [ec]) = length (path' ++ [ec])) by (rewrite !app_length; cbn; lia).
  assert (Loc : length oc = d) by (unfold oc, cell_from_point; now apply map2_len). assert (Lec : length ec = d) by (unfold ec, cell_from_point; now apply map2_len).
  assert (EQ : path ++ [ec] = path' ++ [ec]).
  { apply (nth_ext _ _ [] []); [exact LL|]. intros k Hk. assert (Hk' : (k < length (path' ++ [ec]))%nat) by exact (eq_ind _ (fun n => (k < n)%nat) Hk _ LL).
    pose proof (nth_error_nth' _ [] Hk) as N1. pose proof (nth_error_nth' _ [] Hk') as N2.
    destruct (P k _ N1) as (B1 & M1). destruct (T _ (nth_error_In _ _ N1)) as (u & Hu & T1). destruct (P' k _ N2) as (B2 & M2 & v & Hv & T2).
    refine (one_place_near d (map real o) (map real e) (map real b) (real r) (/ 16) (M _ _ Lo) (M _ _ Le) Pr NC oc ec Loc Lec _ _ _ u v B1 B2 (eq_trans M1 (eq_sym M2)) Hu Hv T1 _).
    - exact (f32_mono d o e b r Lo Le Lb Fo Fe Fr Pr).
    - intros i Hi. specialize (T2 i Hi). lra. }
  apply app_inv_tail in EQ. subst path'. exists path. split; [exact C|exact C'].
Qed.
