(** C95: small errors of the points do not matter to clear beams. *)
From Coq Require Import ZArith List Bool Reals Lra Lia.
From Flocq Require Import Core BinarySingleNaN.
From Verif Require Import Base F32 FloatFacts Arith Geom RayCaster Spec SpecBack SpecMeet SpecNear RayProofs ConverterProofs GridProofs CastProofs RaysProofs IdealRay RayReach IntegrateRange RayLimit BackProofs SameProofs LimitSameProofs SceneProofs MeetProofs.
Open Scope R_scope.

Lemma at_seg : forall d (o e : list R) u i, length o = d -> length e = d -> (i < d)%nat -> nth i (seg o e u) 0 = nth i o 0 + u * (nth i e 0 - nth i o 0).
Proof. intros d o e u i Lo Le Hi. unfold seg. exact (nth_map2 _ o e i 0 0 0 ltac:(lia) ltac:(lia)). Qed.

Section Near.
Context (d : nat) (o e O E b : list R) (r : R) (Hd : (d = 2 \/ d = 3)%nat) (Lo : length o = d) (Le : length e = d) (Lb : length b = d) (Hr : 0 < r).
Context (Co : off_by_cells (/ 64) r o O) (Ce : off_by_cells (/ 64) r e E).

Lemma off_len : forall s (p q : list R), off_by_cells s r p q -> length q = length p.
Proof. intros s p q H. induction H; cbn; congruence. Qed.
Lemma off_nth : forall s (p q : list R) i, off_by_cells s r p q -> (i < length p)%nat -> Rabs (nth i p 0 - nth i q 0) <= s * r.
Proof. intros s p q i H. revert i. induction H; intros [|i] L; cbn in *; try lia; [assumption|apply IHForall2; lia]. Qed.
Lemma LO : length O = d.
Proof. rewrite (off_len _ _ _ Co). exact Lo. Qed.
Lemma LE : length E = d.
Proof. rewrite (off_len _ _ _ Ce). exact Le. Qed.

Lemma seg_off : forall u i, (i < d)%nat -> 0 <= u <= 1 -> Rabs (nth i (seg o e u) 0 - nth i (seg O E u) 0) <= / 64 * r.
Proof.
  intros u i Hi Hu. rewrite (at_seg d o e), (at_seg d O E) by auto using LO, LE.
  pose proof (off_nth _ _ _ i Co ltac:(lia)) as A. pose proof (off_nth _ _ _ i Ce ltac:(lia)) as B. apply Rabs_le_inv in A, B.
  set (x := nth i o 0) in *. set (X := nth i O 0) in *. set (y := nth i e 0) in *. set (Y := nth i E 0) in *.
  replace (x + u * (y - x) - (X + u * (Y - X))) with ((1 - u) * (x - X) + u * (y - Y)) by ring.
  assert (A1 : (1 - u) * (- (/ 64 * r)) <= (1 - u) * (x - X) <= (1 - u) * (/ 64 * r)) by (split; apply Rmult_le_compat_l; lra).
  assert (B1 : u * (- (/ 64 * r)) <= u * (y - Y) <= u * (/ 64 * r)) by (split; apply Rmult_le_compat_l; lra).
  apply Rabs_le. lra.
Qed.

Lemma off_near : forall p P, length p = d -> off_by_cells (/ 64) r p P -> off_borders (/ 8) b r P -> off_borders (/ 16) b r p.
Proof.
  intros p P Lp C OB i k Hi. specialize (OB i k ltac:(rewrite (off_len _ _ _ C); exact Hi)). pose proof (off_nth _ _ _ i C Hi) as A. apply Rabs_le_inv in A.
  unfold Rabs in *. destruct (Rcase_abs _) in OB; destruct (Rcase_abs _); lra.
Qed.

Lemma cell_near : forall p P, length p = d -> off_by_cells (/ 64) r p P -> off_borders (/ 8) b r P -> nearest_cell b r p = nearest_cell b r P.
Proof.
  intros p P Lp C OB. assert (LP : length P = d) by (rewrite (off_len _ _ _ C); exact Lp).
  apply nth_ext with (d := 0%Z) (d' := 0%Z); [unfold nearest_cell; rewrite !(map2_len _ d); auto|]. intros i Hi. unfold nearest_cell in Hi. rewrite (map2_len _ d) in Hi by assumption.
  pose proof (near_closed d Hd o e b r Lo Le Lb Hr P LP i) as N. unfold nearest_cell in N at 1. rewrite (map2_len _ d) in N by assumption. specialize (N Hi).
  set (c := nth i (nearest_cell b r P) 0%Z) in *. pose proof (OB i c ltac:(lia)) as O1. pose proof (OB i (c - 1)%Z ltac:(lia)) as O2. rewrite minus_IZR in O2.
  pose proof (off_nth _ _ _ i C ltac:(lia)) as A. apply Rabs_le_inv in A, N.
  assert (Q : - (/ 2) * r < nth i p 0 - (nth i b 0 + IZR c * r) < / 2 * r).
  { unfold Rabs in O1, O2. split; [destruct (Rcase_abs _) in O2; lra|destruct (Rcase_abs _) in O1; lra]. }
  unfold nearest_cell at 1. rewrite (nth_map2 _ p b i 0 0 0%Z) by lia. apply Znearest_imp.
  set (x := nth i p 0) in *. set (y := nth i b 0) in *. replace ((x - y) / r - IZR c) with ((x - (y + IZR c * r)) / r) by (field; lra).
  assert (IP := Rinv_0_lt_compat _ Hr). assert (R1 : r * / r = 1) by (field; lra).
  apply Rabs_lt. unfold Rdiv. set (z := x - (y + IZR c * r)) in *. split.
  - replace (- / 2) with (- (/ 2) * r * / r) by (field; lra). apply Rmult_lt_compat_r; lra.
  - replace (/ 2) with (/ 2 * r * / r) by (field; lra). apply Rmult_lt_compat_r; lra.
Qed.

Lemma corner_near : off_borders (/ 8) b r O -> no_corner_near (/ 8) b r O E -> no_corner_near (/ 16) b r o e.
Proof.
  intros OB NC u i j k l Hu Hi Hj N Ni Nj A B. rewrite Lo in Hi, Hj.
  assert (K : forall a n, (a < d)%nat -> Rabs (nth a (seg o e u) 0 - (nth a b 0 + (IZR n + / 2) * r)) <= / 16 * r ->
    Rabs (nth a (seg O E u) 0 - (nth a b 0 + (IZR n + / 2) * r)) <= / 8 * r /\ nth a O 0 <> nth a E 0).
  { intros a n Ha H. pose proof (seg_off u a Ha Hu) as S. apply Rabs_le_inv in S, H.
    assert (H2 : - (5 / 64 * r) <= nth a (seg O E u) 0 - (nth a b 0 + (IZR n + / 2) * r) <= 5 / 64 * r) by lra.
    split; [apply Rabs_le; lra|]. intro Q. rewrite (at_seg d O E) in H2 by auto using LO, LE. rewrite <- Q in H2.
    pose proof (OB a n ltac:(rewrite LO; exact Ha)) as P. unfold Rabs in P. destruct (Rcase_abs _) in P; lra. }
  destruct (K i k Hi A) as [K1 K2]. destruct (K j l Hj B) as [K3 K4].
  exact (NC u i j k l Hu ltac:(rewrite LO; exact Hi) ltac:(rewrite LO; exact Hj) N K2 K4 K1 K3).
Qed.

Context (OB : off_borders (/ 8) b r O) (EB : off_borders (/ 8) b r E) (NC : no_corner_near (/ 8) b r O E).
Local Notation oc := (nearest_cell b r O).
Local Notation ec := (nearest_cell b r E).
Context (IO : cells_in_isize oc) (IE : cells_in_isize ec).
Lemma exact_between : forall x, meets b r O E x -> between oc ec x.
Proof. intro x. apply (met_between d (/ 8)); auto using LO, LE; lra. Qed.
Lemma near_between : forall x, meets b r o e x -> between oc ec x.
Proof.
  intros x M. rewrite <- (cell_near o O Lo Co OB), <- (cell_near e E Le Ce EB).
  apply (met_between d (/ 16)); auto; try lra; [exact (off_near o O Lo Co OB)|exact (off_near e E Le Ce EB)].
Qed.
Lemma len_ends : length oc = d /\ length ec = d.
Proof. unfold nearest_cell. rewrite !(map2_len _ d); auto using LO, LE. Qed.

(** A cell met by either segment and one met by the other, equally far along, are the same. *)
Lemma same_place : forall x y, meets b r o e x -> meets b r O E y -> manhattan oc x = manhattan oc y -> x = y.
Proof.
  intros x y Mx My Q. pose proof (near_between x Mx) as Bx. pose proof (exact_between y My) as By. destruct len_ends as [Loc Lec].
  pose proof (between_sum oc ec x ltac:(congruence) Bx) as Sx. pose proof (between_sum oc ec y ltac:(congruence) By) as Sy.
  destruct Mx as (Lx & u & Hu & Cx). destruct My as (Ly & v & Hv & Cy).
  refine (one_place_near d O E b r (/ 8) LO LE Hr NC oc ec Loc Lec _ x y u v Bx By ltac:(lia) Hu Hv _ _).
  - intros i Hi. unfold nearest_cell. rewrite (nth_map2 _ O b i 0 0 0%Z), (nth_map2 _ E b i 0 0 0%Z) by (rewrite ?LO, ?LE; lia).
    assert (IP := Rinv_0_lt_compat _ Hr). split; [intros ->; reflexivity|]. split; intro H; apply (@Zrnd_le _ (valid_rnd_NA)); apply Rmult_le_compat_r; lra.
  - intros i Hi. specialize (Cx i Hi). pose proof (seg_off u i ltac:(lia) Hu) as S. apply Rabs_le_inv in Cx, S. apply Rabs_le. lra.
  - intros i Hi. specialize (Cy i Hi). apply Rabs_le_inv in Cy. apply Rabs_le. lra.
Qed.

Lemma each_place : forall k p q, length p = d -> length q = d -> nearest_cell b r p = oc -> nearest_cell b r q = ec -> off_borders (/ 16) b r q ->
  (0 <= k <= manhattan oc ec)%Z -> exists x, meets b r p q x /\ manhattan oc x = k.
Proof.
  intros k p q Lp Lq Ep Eq Oq Hk. destruct len_ends as [Loc Lec].
  destruct (ideal_places_cast d Hd p q b r Lp Lq Lb Hr) with (fuel := Z.to_nat (manhattan oc ec)) (m := 0) as (path & _ & L & P).
  { apply (off_inside (/ 16)); [lra|exact Hr|exact Oq]. } { rewrite Ep. exact IO. } { rewrite Eq. exact IE. } { lra. } { rewrite Ep, Eq, Z2Nat.id; [apply Z.le_refl|exact (Z.le_trans _ _ _ (proj1 Hk) (proj2 Hk))]. }
  rewrite Eq in P. rewrite Ep in P. rewrite Ep, Eq in L. assert (Hn : (Z.to_nat k < length (path ++ [ec]))%nat) by (rewrite app_length; change (length [ec]) with 1%nat; apply Nat2Z.inj_lt; rewrite Nat2Z.inj_add, L, Z2Nat.id by lia; lia).
  destruct (nth_error (path ++ [ec]) (Z.to_nat k)) as [x|] eqn:N; [|apply nth_error_None in N; lia]. destruct (P _ _ N) as (B & M & u & Hu & C).
  rewrite ?Ep, ?Eq in B. rewrite ?Eq in M. pose proof (between_sum oc ec x ltac:(congruence) B). exists x. split; [|lia]. split; [|exists u; auto]. destruct B as [B _]. congruence.
Qed.

Lemma meets_near : forall x, meets b r o e x <-> meets b r O E x.
Proof.
  intro x. destruct len_ends as [Loc Lec].
  assert (K : forall y, between oc ec y -> (0 <= manhattan oc y <= manhattan oc ec)%Z).
  { intros y B. pose proof (between_sum oc ec y ltac:(congruence) B). pose proof (manhattan_nonneg oc y). pose proof (manhattan_nonneg y ec). lia. }
  split; intro M.
  - destruct (each_place (manhattan oc x) O E LO LE eq_refl eq_refl) as (y & My & Q); [|exact (K x (near_between x M))|].
    { intros i k Hi. specialize (EB i k Hi). lra. }
    rewrite (same_place x y M My (eq_sym Q)). exact My.
  - destruct (each_place (manhattan oc x) o e Lo Le (cell_near o O Lo Co OB) (cell_near e E Le Ce EB) (off_near e E Le Ce EB) (K x (exact_between x M))) as (y & My & Q).
    rewrite <- (same_place y x My M Q). exact My.
Qed.

(** Distances from the origin. *)
Lemma dist_near : forall c, length c = d -> Rabs (dist c o - dist c O) <= / 32 * r.
Proof.
  intros c Lc. pose proof LO as L'. pose proof (off_nth _ _ _ 0 Co ltac:(destruct Hd; lia)) as A0. pose proof (off_nth _ _ _ 1 Co ltac:(destruct Hd; lia)) as A1.
  assert (A2 : (d = 3)%nat -> Rabs (nth 2 o 0 - nth 2 O 0) <= / 64 * r) by (intro D; apply (off_nth _ _ _ 2 Co); lia).
  unfold dist. destruct c as [|c1 [|c2 [|c3 [|c4 c]]]]; cbn in Lc; try (exfalso; destruct Hd; lia);
  destruct o as [|o1 [|o2 [|o3 [|o4 o']]]]; cbn in Lo; try (exfalso; destruct Hd; lia); destruct O as [|O1 [|O2 [|O3 [|O4 O']]]]; cbn in L'; try (exfalso; destruct Hd; lia); cbn [nth] in *; cbn [map2 fold_right].
  - assert (Z0 : Rabs 0 <= / 64 * r) by (rewrite Rabs_R0; lra).
    assert (H : forall a1 a2 b1 b2, Rabs (b1 - a1) <= / 64 * r -> Rabs (b2 - a2) <= / 64 * r -> sqrt ((c1 - a1) * (c1 - a1) + ((c2 - a2) * (c2 - a2) + 0)) <= sqrt ((c1 - b1) * (c1 - b1) + ((c2 - b2) * (c2 - b2) + 0)) + / 32 * r).
    { intros a1 a2 b1 b2 H1 H2. pose proof (norm_add (c1 - b1) (c2 - b2) 0 (b1 - a1) (b2 - a2) 0 (/ 32 * r)) as N.
      replace (c1 - a1) with (c1 - b1 + (b1 - a1)) by ring. replace (c2 - a2) with (c2 - b2 + (b2 - a2)) by ring.
      replace ((0 + 0) * (0 + 0) + 0) with 0 in N by ring. replace (0 * 0 + 0) with 0 in N by ring. apply N; lra. }
    pose proof (H o1 o2 O1 O2) as H1. pose proof (H O1 O2 o1 o2) as H2. rewrite Rabs_minus_sym in A0. rewrite Rabs_minus_sym in A1. specialize (H1 A0 A1). rewrite Rabs_minus_sym in A0. rewrite Rabs_minus_sym in A1. specialize (H2 A0 A1). apply Rabs_le. lra.
  - specialize (A2 ltac:(lia)).
    assert (H : forall a1 a2 a3 b1 b2 b3, Rabs (b1 - a1) <= / 64 * r -> Rabs (b2 - a2) <= / 64 * r -> Rabs (b3 - a3) <= / 64 * r ->
      sqrt ((c1 - a1) * (c1 - a1) + ((c2 - a2) * (c2 - a2) + ((c3 - a3) * (c3 - a3) + 0))) <= sqrt ((c1 - b1) * (c1 - b1) + ((c2 - b2) * (c2 - b2) + ((c3 - b3) * (c3 - b3) + 0))) + / 32 * r).
    { intros a1 a2 a3 b1 b2 b3 H1 H2 H3. pose proof (norm_add (c1 - b1) (c2 - b2) (c3 - b3) (b1 - a1) (b2 - a2) (b3 - a3) (/ 32 * r)) as N.
      replace (c1 - a1) with (c1 - b1 + (b1 - a1)) by ring. replace (c2 - a2) with (c2 - b2 + (b2 - a2)) by ring. replace (c3 - a3) with (c3 - b3 + (b3 - a3)) by ring. apply N; lra. }
    pose proof (H o1 o2 o3 O1 O2 O3) as H1. pose proof (H O1 O2 O3 o1 o2 o3) as H2. specialize (H2 A0 A1 A2). rewrite Rabs_minus_sym in A0. rewrite Rabs_minus_sym in A1. rewrite Rabs_minus_sym in A2. specialize (H1 A0 A1 A2). apply Rabs_le. lra.
Qed.

Context (m : R) (LC : forall x u, length x = length O -> 0 <= u <= 1 -> in_grown_cell (/ 8) b r x (seg O E u) ->
  dist (cell_centre b r x) O + / 8 * r <= m \/ m + / 8 * r < dist (cell_centre b r x) O).
Lemma limit_near : limit_clear (/ 32) m b r o e.
Proof.
  intros x u Lx Hu G. rewrite Lo in Lx. assert (G' : in_grown_cell (/ 8) b r x (seg O E u)).
  { intros i Hi. specialize (G i Hi). pose proof (seg_off u i ltac:(lia) Hu) as S. apply Rabs_le_inv in G, S. apply Rabs_le. lra. }
  pose proof (dist_near (cell_centre b r x) ltac:(unfold cell_centre; now apply map2_len)) as D. apply Rabs_le_inv in D.
  destruct (LC x u ltac:(rewrite LO; exact Lx) Hu G'); [left|right]; lra.
Qed.

Lemma long_near : forall y, too_long m b r o e y <-> too_long m b r O E y.
Proof.
  intro y. unfold too_long. rewrite meets_near, (cell_near o O Lo Co OB), (cell_near e E Le Ce EB).
  assert (H : meets b r O E y -> (m < dist (cell_centre b r y) o <-> m < dist (cell_centre b r y) O)); [|tauto].
  intros (Ly & u & Hu & C). rewrite LO in Ly. pose proof (dist_near (cell_centre b r y) ltac:(unfold cell_centre; now apply map2_len)) as D. apply Rabs_le_inv in D.
  destruct (LC y u ltac:(rewrite LO; exact Ly) Hu); [intros i Hi; specialize (C i Hi); lra| |]; split; lra.
Qed.
Lemma passes_near : forall x, beam_passes m b r o e x <-> beam_passes m b r O E x.
Proof.
  intro x. unfold beam_passes. rewrite meets_near, (cell_near o O Lo Co OB), (cell_near e E Le Ce EB).
  split; intros (A & B & C); (split; [exact A|]; split; [exact B|]; intros y Y; apply C; now apply long_near).
Qed.
Lemma arrives_near : beam_arrives m b r o e <-> beam_arrives m b r O E.
Proof. unfold beam_arrives. split; intros A y Y; apply (A y); now apply long_near. Qed.
End Near.

(** ** In f32 *)
Section Float.
Context (d : nat) (o e b : point) (r : f32) (Hd : (d = 2 \/ d = 3)%nat) (Lo : length o = d) (Le : length e = d) (Lb : length b = d) (HS : ray_short r o e b).
Context (O E : list R) (Co : off_by_cells (/ 64) (real r) (map real o) O) (Ce : off_by_cells (/ 64) (real r) (map real e) E).
Local Notation B := (map real b).
Context (OB : off_borders (/ 8) B (real r) O) (EB : off_borders (/ 8) B (real r) E) (NC : no_corner_near (/ 8) B (real r) O E).

Lemma pos_r : 0 < real r.
Proof. apply (short_finite _ _ _ _ HS). Qed.
Lemma f_borders : off_borders (/ 16) B (real r) (map real o) /\ off_borders (/ 16) B (real r) (map real e) /\ no_corner_near (/ 16) B (real r) (map real o) (map real e).
Proof.
  pose proof pos_r as P. split; [|split].
  - exact (off_near d _ _ B (real r) Hd (len_real _ _ Lo) (len_real _ _ Le) (len_real _ _ Lb) P _ O (len_real _ _ Lo) Co OB).
  - exact (off_near d _ _ B (real r) Hd (len_real _ _ Lo) (len_real _ _ Le) (len_real _ _ Lb) P _ E (len_real _ _ Le) Ce EB).
  - exact (corner_near d _ _ O E B (real r) Hd (len_real _ _ Lo) (len_real _ _ Le) (len_real _ _ Lb) P Co Ce OB NC).
Qed.

Lemma f_cells : nearest_cell B (real r) (map real o) = nearest_cell B (real r) O /\ nearest_cell B (real r) (map real e) = nearest_cell B (real r) E /\
  cells_in_isize (nearest_cell B (real r) O) /\ cells_in_isize (nearest_cell B (real r) E).
Proof.
  pose proof pos_r as P. destruct f_borders as (O1 & O2 & N). destruct (same_ray d o e b r Hd Lo Le Lb HS O1 O2 N) as (E1 & E2 & _).
  pose proof (cell_near d _ _ B (real r) Hd (len_real _ _ Lo) (len_real _ _ Le) (len_real _ _ Lb) P _ O (len_real _ _ Lo) Co OB) as C1.
  pose proof (cell_near d _ _ B (real r) Hd (len_real _ _ Lo) (len_real _ _ Le) (len_real _ _ Lb) P _ E (len_real _ _ Le) Ce EB) as C2.
  split; [exact C1|]. split; [exact C2|]. rewrite <- C1, <- C2, E1, E2. split; apply cfp_in_isize.
Qed.
Lemma f_meets : forall x, meets B (real r) (map real o) (map real e) x <-> meets B (real r) O E x.
Proof.
  destruct f_cells as (_ & _ & I1 & I2).
  apply (meets_near d (map real o) (map real e) O E B (real r)); auto using len_real, pos_r.
Qed.
Context (m : R) (LC : forall x u, length x = length O -> 0 <= u <= 1 -> in_grown_cell (/ 8) B (real r) x (seg O E u) ->
  dist (cell_centre B (real r) x) O + / 8 * real r <= m \/ m + / 8 * real r < dist (cell_centre B (real r) x) O).
Lemma f_limit : limit_clear (/ 32) m B (real r) (map real o) (map real e).
Proof.
  destruct f_cells as (_ & _ & I1 & I2).
  apply (limit_near d (map real o) (map real e) O E B (real r)); auto using len_real, pos_r.
Qed.
Lemma f_passes : forall x, beam_passes m B (real r) (map real o) (map real e) x <-> beam_passes m B (real r) O E x.
Proof.
  destruct f_cells as (_ & _ & I1 & I2).
  apply (passes_near d (map real o) (map real e) O E B (real r)); auto using len_real, pos_r.
Qed.
Lemma f_arrives : beam_arrives m B (real r) (map real o) (map real e) <-> beam_arrives m B (real r) O E.
Proof.
  destruct f_cells as (_ & _ & I1 & I2).
  apply (arrives_near d (map real o) (map real e) O E B (real r)); auto using len_real, pos_r.
Qed.
End Float.

Lemma near_ray : forall d (o e b : point) (r : f32) (O E : list R), (d = 2 \/ d = 3)%nat -> length o = d -> length e = d -> length b = d -> ray_short r o e b ->
  off_by_cells (/ 64) (real r) (map real o) O -> off_by_cells (/ 64) (real r) (map real e) E ->
  let B := map real b in off_borders (/ 8) B (real r) O -> off_borders (/ 8) B (real r) E -> no_corner_near (/ 8) B (real r) O E ->
  let oc := nearest_cell B (real r) O in let ec := nearest_cell B (real r) E in
  forall fuel m, fltb f0 m = false -> (manhattan oc ec <= Z.of_nat fuel)%Z ->
  exists path, cast_ray F32A fuel o e b r m = Ret (path, Some ec) /\
    (forall x, In x (path ++ [ec]) <-> meets B (real r) O E x) /\
    (forall k x, nth_error (path ++ [ec]) k = Some x -> manhattan oc x = Z.of_nat k).
Proof.
  intros d o e b r O E Hd Lo Le Lb HS Co Ce B OB EB NC oc ec fuel m Hm F.
  destruct (f_borders d o e b r Hd Lo Le Lb HS O E Co Ce OB EB NC) as (O1 & O2 & N).
  destruct (f_cells d o e b r Hd Lo Le Lb HS O E Co Ce OB EB NC) as (C1 & C2 & _).
  pose proof (crossed d o e b r Hd Lo Le Lb HS O1 O2 N) as K. cbv zeta in K. rewrite C1, C2 in K. destruct (K fuel m Hm F) as (path & P1 & P2 & P3).
  exists path. split; [exact P1|]. split; [|exact P3]. intro x. etransitivity; [apply P2|]. exact (f_meets d o e b r Hd Lo Le Lb HS O E Co Ce OB EB NC x).
Qed.

(** The computed beam is clear, and does what the exact one does. *)
Lemma near_clear : forall d (o e b : point) (r m : f32) (O E : list R), (d = 2 \/ d = 3)%nat -> length o = d -> length e = d -> length b = d -> ray_short r o e b ->
  off_by_cells (/ 64) (real r) (map real o) O -> off_by_cells (/ 64) (real r) (map real e) E -> clear_segment (real m) (map real b) (real r) O E ->
  let B := map real b in clear_ray m r b o e /\
  nearest_cell B (real r) (map real e) = nearest_cell B (real r) E /\
  (forall x, beam_passes (real m) B (real r) (map real o) (map real e) x <-> beam_passes (real m) B (real r) O E x) /\
  (beam_arrives (real m) B (real r) (map real o) (map real e) <-> beam_arrives (real m) B (real r) O E).
Proof.
  intros d o e b r m O E Hd Lo Le Lb HS Co Ce (OB & EB & NC & LC) B.
  destruct (f_borders d o e b r Hd Lo Le Lb HS O E Co Ce OB EB NC) as (O1 & O2 & N).
  destruct (f_cells d o e b r Hd Lo Le Lb HS O E Co Ce OB EB NC) as (_ & C2 & _).
  split; [split; [exact HS|]; split; [exact O1|]; split; [exact O2|]; split; [exact N|]; exact (f_limit d o e b r Hd Lo Le Lb HS O E Co Ce OB EB NC (real m) LC)|].
  split; [exact C2|]. split; [exact (f_passes d o e b r Hd Lo Le Lb HS O E Co Ce OB EB NC (real m) LC)|exact (f_arrives d o e b r Hd Lo Le Lb HS O E Co Ce OB EB NC (real m) LC)].
Qed.

Lemma near_beam : forall d (o e b : point) (r : f32) (O E : list R), (d = 2 \/ d = 3)%nat -> length o = d -> length e = d -> length b = d -> ray_short r o e b ->
  off_by_cells (/ 64) (real r) (map real o) O -> off_by_cells (/ 64) (real r) (map real e) E ->
  forall fuel m, let B := map real b in clear_segment (real m) B (real r) O E -> fltb f0 m = true -> finite m -> real m <= 1048576 * real r -> (3072 <= fuel)%nat ->
  exists rc oe, cast_ray F32A fuel o e b r m = Ret (rc, oe) /\ (forall x, In x rc <-> beam_passes (real m) B (real r) O E x) /\
    (forall c, oe = Some c <-> c = nearest_cell B (real r) E /\ beam_arrives (real m) B (real r) O E).
Proof.
  intros d o e b r O E Hd Lo Le Lb HS Co Ce fuel m B CS Pm Fm Bm F.
  destruct (near_clear d o e b r m O E Hd Lo Le Lb HS Co Ce CS) as (CR & C2 & P & A).
  destruct (beam d o e b r Hd Lo Le Lb fuel m CR Pm Fm Bm F) as (rc & oe & C & I & X). exists rc, oe. split; [exact C|]. split.
  - intro x. etransitivity; [apply I|apply P].
  - intro c. etransitivity; [apply X|]. fold B in C2, A. fold B. rewrite C2, A. reflexivity.
Qed.
