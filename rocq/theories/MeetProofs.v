(** C94: the cells an f32 ray visits are those the segment meets. *)
From Coq Require Import ZArith List Bool Reals Lra Lia.
From Flocq Require Import Core BinarySingleNaN.
From Verif Require Import Base F32 FloatFacts Arith Geom RayCaster Spec SpecBack SpecMeet RayProofs ConverterProofs GridProofs CastProofs RaysProofs IdealRay RayReach IntegrateRange RayLimit BackProofs SameProofs LimitSameProofs.
Open Scope R_scope.

(** A cell that the segment meets lies between the ends when these are off the borders. *)
Lemma met_between : forall d g (o e b : list R) r x, (d = 2 \/ d = 3)%nat -> length o = d -> length e = d -> length b = d -> 0 < r -> 0 < g ->
  off_borders g b r o -> off_borders g b r e -> meets b r o e x -> between (nearest_cell b r o) (nearest_cell b r e) x.
Proof.
  intros d g o e b r x Hd Lo Le Lb Hr Hg Oo Oe (Lx & u & Hu & C). assert (G : 0 < g * r) by nra.
  assert (Loc : length (nearest_cell b r o) = d) by (unfold nearest_cell; now apply map2_len).
  split; [congruence|]. intros i Hi. rewrite Loc in Hi. specialize (C i ltac:(lia)).
  assert (S : nth i (seg o e u) 0 = nth i o 0 + u * (nth i e 0 - nth i o 0)) by (unfold seg; exact (nth_map2 _ o e i 0 0 0 ltac:(lia) ltac:(lia))). rewrite S in C. clear S.
  assert (I : forall p, length p = d -> off_borders g b r p -> let c := nth i (nearest_cell b r p) 0%Z in - / 2 * r < nth i p 0 - (nth i b 0 + IZR c * r) < / 2 * r).
  { intros p Lp O c. pose proof (near_closed d Hd o e b r Lo Le Lb Hr p Lp i) as N. unfold nearest_cell in N at 1. rewrite (map2_len _ d) in N by assumption. specialize (N Hi). fold c in N.
    pose proof (O i c ltac:(lia)) as O1. pose proof (O i (c - 1)%Z ltac:(lia)) as O2. rewrite minus_IZR in O2. apply Rabs_le_inv in N. unfold Rabs in O1, O2.
    split; [destruct (Rcase_abs _) in O2; lra|destruct (Rcase_abs _) in O1; lra]. }
  pose proof (I o Lo Oo) as I1. pose proof (I e Le Oe) as I2. cbv zeta in I1, I2. clear I Oo Oe.
  set (P := nth i (nearest_cell b r o) 0%Z) in *. set (Q := nth i (nearest_cell b r e) 0%Z) in *. set (X := nth i x 0%Z) in *. apply Rabs_le_inv in C.
  set (p := nth i o 0) in *. set (q := nth i e 0) in *. set (B := nth i b 0) in *.
  assert (LT : forall m n : Z, IZR m * r < (IZR n + 1) * r -> (m <= n)%Z). { intros m n H. apply Rmult_lt_reg_r in H; [|exact Hr]. rewrite <- succ_IZR in H. apply lt_IZR in H. lia. }
  assert (SG : p <= p + u * (q - p) <= q \/ q <= p + u * (q - p) <= p) by (destruct (Rle_or_lt p q); [left|right]; split; nra).
  destruct SG as [SG|SG].
  - assert (P <= X)%Z by (apply LT; lra). assert (X <= Q)%Z by (apply LT; lra). lia.
  - assert (Q <= X)%Z by (apply LT; lra). assert (X <= P)%Z by (apply LT; lra). lia.
Qed.

Section Clear.
Context (d : nat) (o e b : point) (r : f32) (Hd : (d = 2 \/ d = 3)%nat) (Lo : length o = d) (Le : length e = d) (Lb : length b = d) (HS : ray_short r o e b).
Local Notation O := (map real o).
Local Notation E := (map real e).
Local Notation B := (map real b).
Context (O1 : off_borders (/ 16) B (real r) O) (O2 : off_borders (/ 16) B (real r) E) (NC : no_corner_near (/ 16) B (real r) O E).
Local Notation oc := (nearest_cell B (real r) O).
Local Notation ec := (nearest_cell B (real r) E).

Lemma len_real : forall (p : point) n, length p = n -> length (map real p) = n.
Proof. intros. now rewrite map_length. Qed.
Lemma meets_clear : forall x, meets B (real r) O E x -> between oc ec x.
Proof. intro x. apply (met_between d (/ 16)); auto using len_real; [apply (short_finite _ _ _ _ HS)|lra]. Qed.

(** The unlimited ray, in f32 and exactly: its [k]-th cell is [k] steps away and is met. *)
Lemma clear_cast : forall fuel m', (m' <= 0) -> (manhattan oc ec <= Z.of_nat fuel)%Z ->
  exists path, cast_ray F32A fuel o e b r f0 = Ret (path, Some ec) /\
    cast_ray RealA fuel (map Fin O) (map Fin E) (map Fin B) (Fin (real r)) (Fin m') = Ret (path, Some ec) /\
    (forall k x, nth_error (path ++ [ec]) k = Some x -> meets B (real r) O E x /\ manhattan oc x = Z.of_nat k) /\
    (forall x, meets B (real r) O E x -> In x (path ++ [ec])) /\ ~ In ec path.
Proof.
  intros fuel m' Hm F. destruct (same_ray d o e b r Hd Lo Le Lb HS O1 O2 NC) as (E1 & E2 & S). cbv zeta in S. rewrite <- E1, <- E2 in S.
  destruct (S fuel f0 m' eq_refl Hm F) as (path & C & C'). exists path. split; [exact C|]. split; [exact C'|].
  destruct (short_finite _ _ _ _ HS) as (Fr & Pr & Fo & Fe & _).
  destruct (ideal_places_cast d Hd O E B (real r) (len_real _ _ Lo) (len_real _ _ Le) (len_real _ _ Lb) Pr) with (fuel := fuel) (m := m') as (path' & C2 & L' & P').
  { apply (off_inside (/ 16)); [lra|exact Pr|exact O2]. } { rewrite E1. apply cfp_in_isize. } { rewrite E2. apply cfp_in_isize. } { exact Hm. } { exact F. }
  assert (path' = path) by (rewrite C' in C2; congruence). subst path'. clear C2.
  assert (Loc : length oc = d) by (unfold nearest_cell; apply map2_len; now apply len_real). assert (Lec : length ec = d) by (unfold nearest_cell; apply map2_len; now apply len_real).
  assert (K : forall k x, nth_error (path ++ [ec]) k = Some x -> meets B (real r) O E x /\ manhattan oc x = Z.of_nat k).
  { intros k x X. destruct (P' k x X) as (BT & MX & u & Hu & T). split; [|pose proof (between_sum oc ec x ltac:(congruence) BT); lia].
    split; [|exists u; auto]. destruct BT as [L _]. rewrite map_length. congruence. }
  split; [exact K|]. split.
  - intros x MT. pose proof (meets_clear x MT) as BT. pose proof (between_sum oc ec x ltac:(congruence) BT) as SUM. pose proof (manhattan_nonneg oc x) as N0. pose proof (manhattan_nonneg x ec) as N1.
    set (k := Z.to_nat (manhattan oc x)). assert (Hk : (k < length (path ++ [ec]))%nat) by (rewrite app_length; cbn; lia).
    pose proof (nth_error_nth' _ [] Hk) as N. destruct (P' k _ N) as (B2 & M2 & v & Hv & T2). destruct MT as (Lx & u & Hu & T).
    assert (Q : x = nth k (path ++ [ec]) []); [|rewrite Q; exact (nth_error_In _ _ N)].
    assert (GR : forall y w, in_closed_cell B (real r) y (seg O E w) -> in_grown_cell (/ 16) B (real r) y (seg O E w)) by (intros y w H i Hi; specialize (H i Hi); lra).
    refine (one_place_near d O E B (real r) (/ 16) (len_real _ _ Lo) (len_real _ _ Le) Pr NC oc ec Loc Lec _ _ _ u v BT B2 _ Hu Hv (GR _ _ T) (GR _ _ T2)).
    + rewrite E1, E2. exact (f32_mono d o e b r Lo Le Lb Fo Fe Fr Pr).
    + unfold k in *. rewrite Z2Nat.id in M2 by lia. transitivity (manhattan oc ec - manhattan oc x)%Z; [lia|symmetry; exact M2].
  - intro H. apply In_nth_error in H. destruct H as [k H]. assert (Hk : (k < length path)%nat) by (apply nth_error_Some; congruence).
    rewrite <- (nth_error_app1 path [ec] Hk) in H. destruct (K k ec H) as [_ M1]. lia.
Qed.

(** The limited ray. *)
Lemma clear_limited : forall fuel m, fltb f0 m = true -> finite m -> real m <= 1048576 * real r -> limit_clear (/ 32) (real m) B (real r) O E -> (manhattan oc ec <= Z.of_nat fuel)%Z ->
  exists rc oe, cast_ray F32A fuel o e b r m = Ret (rc, oe) /\ (forall x, In x rc <-> beam_passes (real m) B (real r) O E x) /\
    (forall c, oe = Some c <-> c = ec /\ beam_arrives (real m) B (real r) O E).
Proof.
  intros fuel m Pm Fm Bm LC F. destruct (same_ray d o e b r Hd Lo Le Lb HS O1 O2 NC) as (E1 & E2 & _).
  destruct (same_limited d o e b r Hd Lo Le Lb HS O1 O2 NC fuel m Pm Fm Bm LC ltac:(rewrite <- E1, <- E2; exact F)) as (rc & oe & C & C').
  exists rc, oe. split; [exact C|]. clear C.
  destruct (clear_cast fuel 0 ltac:(lra) F) as (path & _ & C0 & K & MT & NE).
  assert (RM : 0 < real m) by (apply fltb_iff in Pm; destruct Pm as (_ & _ & Q); rewrite (ext_finite m) in Q by exact Fm; exact Q).
  destruct (cut_cast RealA fuel _ _ _ _ (Fin (real m)) (Fin 0) path ec ltac:(cbn; apply Rlt_bool_false; lra) C0) as [K1 K2].
  set (far := too_far RealA _) in K1, K2.
  assert (HF : forall x, meets B (real r) O E x -> far x = Rlt_bool (real m) (dist (cell_centre B (real r) x) O)).
  { intros x [Lx _]. unfold far. apply (far_real d); auto using len_real. rewrite map_length in Lx. exact (eq_trans Lx Lo). }
  assert (IDX : forall x, In x path -> exists k, nth_error path k = Some x /\ manhattan oc x = Z.of_nat k /\ meets B (real r) O E x).
  { intros x H. apply In_nth_error in H. destruct H as [k H]. exists k. split; [exact H|]. assert (Hk : (k < length path)%nat) by (apply nth_error_Some; congruence).
    rewrite <- (nth_error_app1 path [ec] Hk) in H. destruct (K k x H). auto. }
  assert (TL : forall y, too_long (real m) B (real r) O E y -> exists k, nth_error (tl path) k = Some y /\ manhattan oc y = Z.of_nat (S k) /\ far y = true).
  { intros y (M1 & N1 & N2 & D). assert (I : In y path) by (destruct (in_app_or _ _ _ (MT y M1)) as [I|[I|[]]]; [exact I|congruence]).
    destruct (IDX y I) as (k & Hk & Mk & _). assert (FY : far y = true) by (rewrite HF by exact M1; now apply Rlt_bool_true).
    destruct k as [|k]; [exfalso; apply N1; symmetry; apply manhattan_zero; [|exact Mk]|]. { destruct M1 as [Ly _]. rewrite Ly, map_length. unfold nearest_cell. rewrite (map2_len _ d) by now apply len_real. congruence. }
    exists k. destruct path as [|z path]; [discriminate Hk|]. auto. }
  destruct (first_far far (tl path)) as [AF|(pre & x0 & post & EP & AF & X0)].
  - specialize (K1 AF). assert (rc = path /\ oe = Some ec) by (split; congruence). destruct H as [-> ->].
    assert (AR : beam_arrives (real m) B (real r) O E). { intros y Y. destruct (TL y Y) as (k & Hk & _ & FY). apply nth_error_In in Hk. rewrite Forall_forall in AF. rewrite (AF y Hk) in FY. discriminate. }
    split.
    + intro x. split.
      * intro I. destruct (IDX x I) as (k & _ & _ & Mx). split; [exact Mx|]. split; [intros ->; now apply NE|]. intros y Y. now elim (AR y).
      * intros (Mx & Nx & _). destruct (in_app_or _ _ _ (MT x Mx)) as [I|[I|[]]]; [exact I|congruence].
    + intro c. split; [intro H; injection H as <-; auto|intros [-> _]; reflexivity].
  - destruct path as [|z path]; [destruct pre; discriminate EP|]. cbn [tl] in EP. subst path.
    specialize (K2 (z :: pre) x0 post eq_refl ltac:(discriminate) AF X0). assert (rc = z :: pre /\ oe = None) by (split; congruence). destruct H as [-> ->].
    assert (N0 : nth_error (z :: pre ++ x0 :: post) (S (length pre)) = Some x0) by (cbn [nth_error]; rewrite nth_error_app2 by lia; now rewrite Nat.sub_diag).
    destruct (IDX x0 (nth_error_In _ _ N0)) as (k0 & _ & _ & M0). assert (MK0 : manhattan oc x0 = Z.of_nat (S (length pre))).
    { assert (Hk : (S (length pre) < length (z :: pre ++ x0 :: post))%nat) by (apply nth_error_Some; congruence). rewrite <- (nth_error_app1 _ [ec] Hk) in N0. exact (proj2 (K _ _ N0)). }
    assert (T0 : too_long (real m) B (real r) O E x0).
    { split; [exact M0|]. split; [intros Q; rewrite Q, manhattan_refl in MK0; lia|]. split; [intros ->; exact (NE (nth_error_In _ _ N0))|].
      rewrite HF in X0 by exact M0. destruct (Rlt_bool_spec (real m) (dist (cell_centre B (real r) x0) O)) as [Q|Q]; [exact Q|discriminate X0]. }
    split.
    + intro x. split.
      * intro I. assert (I' : In x (z :: pre ++ x0 :: post)) by (destruct I as [I|I]; [left; exact I|right; apply in_or_app; now left]).
        destruct (IDX x I') as (_ & _ & _ & Mx). split; [exact Mx|]. split; [intros ->; exact (NE I')|]. intros y Y. destruct (TL y Y) as (k & Hk & MY & FY). cbn [tl] in Hk. rewrite MY.
        assert (Hp : (length pre <= k)%nat). { destruct (Nat.lt_ge_cases k (length pre)) as [L|L]; [|exact L]. rewrite nth_error_app1 in Hk by exact L. apply nth_error_In in Hk. rewrite Forall_forall in AF. rewrite (AF y Hk) in FY. discriminate. }
        apply In_nth_error in I. destruct I as [j J]. assert (Hj : (j < length (z :: pre))%nat) by (apply nth_error_Some; congruence).
        change (z :: pre ++ x0 :: post) with ((z :: pre) ++ x0 :: post) in K. rewrite <- (nth_error_app1 _ ((x0 :: post) ++ [ec]) Hj), app_assoc in J. destruct (K j x J) as [_ ->]. cbn [length] in Hj. lia.
      * intros (Mx & Nx & T). specialize (T x0 T0). rewrite MK0 in T. destruct (in_app_or _ _ _ (MT x Mx)) as [I|[I|[]]]; [|congruence].
        destruct (IDX x I) as (k & Hk & MK & _). assert (L : (k < length (z :: pre))%nat) by (cbn [length]; lia). change (z :: pre ++ x0 :: post) with ((z :: pre) ++ x0 :: post) in Hk. rewrite nth_error_app1 in Hk by exact L. exact (nth_error_In _ _ Hk).
    + intro c. split; [discriminate|]. intros [_ A]. now elim (A x0).
Qed.
End Clear.

Lemma crossed : forall d (o e b : point) (r : f32), (d = 2 \/ d = 3)%nat -> length o = d -> length e = d -> length b = d -> ray_short r o e b ->
  off_borders (/ 16) (map real b) (real r) (map real o) -> off_borders (/ 16) (map real b) (real r) (map real e) ->
  no_corner_near (/ 16) (map real b) (real r) (map real o) (map real e) ->
  let oc := nearest_cell (map real b) (real r) (map real o) in let ec := nearest_cell (map real b) (real r) (map real e) in
  forall fuel m, fltb f0 m = false -> (manhattan oc ec <= Z.of_nat fuel)%Z ->
  exists path, cast_ray F32A fuel o e b r m = Ret (path, Some ec) /\
    (forall x, In x (path ++ [ec]) <-> meets (map real b) (real r) (map real o) (map real e) x) /\
    (forall k x, nth_error (path ++ [ec]) k = Some x -> manhattan oc x = Z.of_nat k).
Proof.
  intros d o e b r Hd Lo Le Lb HS O1 O2 NC oc ec fuel m Hm F.
  destruct (clear_cast d o e b r Hd Lo Le Lb HS O1 O2 NC fuel 0 ltac:(lra) F) as (path & C & _ & K & MT & _). fold oc ec in C, K, MT.
  destruct (same_ray d o e b r Hd Lo Le Lb HS O1 O2 NC) as (E1 & E2 & S). cbv zeta in S. rewrite <- E1, <- E2 in S. fold oc ec in S.
  destruct (S fuel f0 0 eq_refl ltac:(lra) F) as (p1 & C1 & R1). destruct (S fuel m 0 Hm ltac:(lra) F) as (p2 & C2 & R2).
  assert (p2 = path) by (rewrite R1 in R2; rewrite C in C1; congruence). subst p2.
  exists path. split; [exact C2|]. split; [|intros k x X; exact (proj2 (K k x X))].
  intro x. split; [|apply MT]. intro I. apply In_nth_error in I. destruct I as [k X]. exact (proj1 (K k x X)).
Qed.

Lemma beam : forall d (o e b : point) (r : f32), (d = 2 \/ d = 3)%nat -> length o = d -> length e = d -> length b = d ->
  forall fuel m, clear_ray m r b o e -> fltb f0 m = true -> finite m -> real m <= 1048576 * real r -> (3072 <= fuel)%nat ->
  let B := map real b in let O := map real o in let E := map real e in
  exists rc oe, cast_ray F32A fuel o e b r m = Ret (rc, oe) /\ (forall x, In x rc <-> beam_passes (real m) B (real r) O E x) /\
    (forall c, oe = Some c <-> c = nearest_cell B (real r) E /\ beam_arrives (real m) B (real r) O E).
Proof.
  intros d o e b r Hd Lo Le Lb fuel m (HS & O1 & O2 & NC & LC) Pm Fm Bm F B O E.
  apply (clear_limited d o e b r Hd Lo Le Lb HS O1 O2 NC fuel m Pm Fm Bm LC).
  destruct (same_ray d o e b r Hd Lo Le Lb HS O1 O2 NC) as (E1 & E2 & _). rewrite E1, E2. pose proof (short_steps d Hd o e b r Lo Le Lb HS). lia.
Qed.

Lemma scan_meets : forall d fuel (o : point) cloud (bd : bounds) r m, (d = 2 \/ d = 3)%nat -> length o = d -> length (bmin bd) = d ->
  fltb f0 m = true -> finite m -> real m <= 1048576 * real r -> (3072 <= fuel)%nat ->
  (forall p, In p (pc_points cloud) -> length p = d /\ clear_ray m r (bmin bd) o p) ->
  let B := map real (bmin bd) in let O := map real o in
  exists free occ, cast_rays fuel o cloud bd r m = Ret (free, occ) /\
    (forall c, In c occ <-> exists p, In p (pc_points cloud) /\ c = nearest_cell B (real r) (map real p) /\ beam_arrives (real m) B (real r) O (map real p)) /\
    (forall c, In c free <-> (exists p, In p (pc_points cloud) /\ beam_passes (real m) B (real r) O (map real p) c) /\ ~ In c occ).
Proof.
  intros d fuel o cloud bd r m Hd Lo Lb Pm Fm Bm F H B O.
  assert (S : forall p, In p (pc_points cloud) -> exists rc oe, cast_ray F32A fuel o p (bmin bd) r m = Ret (rc, oe) /\ (forall x, In x rc <-> beam_passes (real m) B (real r) O (map real p) x) /\
    (forall c, oe = Some c <-> c = nearest_cell B (real r) (map real p) /\ beam_arrives (real m) B (real r) O (map real p))).
  { intros p Hp. destruct (H p Hp) as [Lp CR]. exact (beam d o p (bmin bd) r Hd Lo Lp Lb fuel m CR Pm Fm Bm F). }
  destruct (cast_rays_returns fuel o cloud bd r m) as [[free occ] R]; [intros p Hp; destruct (S p Hp) as (rc & oe & C & _); exists (rc, oe); exact C|].
  destruct (cast_rays_sets fuel o cloud bd r m free occ R) as (_ & Ho & Hf & _). exists free, occ. split; [exact R|]. split.
  - intro c. rewrite Ho. split.
    + intros (p & rc & Hp & C). exists p. split; [exact Hp|]. destruct (S p Hp) as (rc' & oe & C1 & _ & K). apply K. congruence.
    + intros (p & Hp & K). destruct (S p Hp) as (rc' & oe & C1 & _ & K'). apply K' in K. exists p, rc'. split; [exact Hp|]. congruence.
  - intro c. rewrite Hf. split.
    + intros [(p & rc & oe & Hp & C & I) N]. split; [|exact N]. exists p. split; [exact Hp|]. destruct (S p Hp) as (rc' & oe' & C1 & K & _). apply K. congruence.
    + intros [(p & Hp & K) N]. split; [|exact N]. destruct (S p Hp) as (rc' & oe' & C1 & K' & _). exists p, rc', oe'. split; [exact Hp|]. split; [exact C1|]. now apply K'.
Qed.
