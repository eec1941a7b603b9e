(** C92: limited f32 rays and limited exact rays. *)
From Coq Require Import ZArith List Bool Reals Lra Lia Psatz.
From Flocq Require Import Core BinarySingleNaN.
From Verif Require Import Base F32 FloatFacts RoundError Arith Geom RayCaster Spec SpecBack RayProofs ConverterProofs GridProofs CastProofs RaysProofs RayRange RayReach IntegrateRange RayLimit BackProofs SameProofs.
Open Scope R_scope.

(** A limited ray is the unlimited one, cut where the test says so. *)
Lemma cut_cast : forall A fuel o e b r m m0 rc0 c, tltb A (tzero A) m0 = false -> cast_ray A fuel o e b r m0 = Ret (rc0, Some c) ->
  let far := too_far A (env_of A o e b r m) in
  (Forall (fun x => far x = false) (tl rc0) -> cast_ray A fuel o e b r m = Ret (rc0, Some c)) /\
  (forall pre x post, rc0 = pre ++ x :: post -> pre <> [] -> Forall (fun x => far x = false) (tl pre) -> far x = true -> cast_ray A fuel o e b r m = Ret (pre, None)).
Proof.
  intros A fuel o e b r m m0 rc0 c Hm0 R far. rewrite cast_unfold in *. destruct (_ || _); [|discriminate].
  destruct (cell_eqb _ _).
  - injection R as <- <-. split; [reflexivity|]. intros [|] x post H; discriminate.
  - change (env_of A o e b r m0) with (unlimited A (env_of A o e b r m) m0) in R.
    destruct (loop_cut A fuel (env_of A o e b r m) m0 _ _ _ _ _ Hm0 R) as (path & -> & P1 & P2).
    split; [exact P1|]. intros [|p pre] x post E NE H B; [now elim NE|]. injection E as <- ->. exact (P2 pre x post eq_refl H B).
Qed.
Lemma first_far : forall (f : cell -> bool) l, Forall (fun x => f x = false) l \/ exists pre x post, l = pre ++ x :: post /\ Forall (fun x => f x = false) pre /\ f x = true.
Proof.
  intros f l. destruct (first_beyond (fun x => f x = true) l) as [H|(pre & x & post & E & H & X)].
  - intro x. destruct (f x); [now left|right; discriminate].
  - left. revert H. apply Forall_impl. intros x H. now destruct (f x).
  - right. exists pre, x, post. split; [exact E|]. split; [|exact X]. revert H. apply Forall_impl. intros y H. now destruct (f y).
Qed.
(** Two arithmetics whose unlimited rays and tests agree. *)
Lemma same_cut : forall A A' fuel o e b r m m0 o' e' b' r' m' m0' rc0 c, tltb A (tzero A) m0 = false -> tltb A' (tzero A') m0' = false ->
  cast_ray A fuel o e b r m0 = Ret (rc0, Some c) -> cast_ray A' fuel o' e' b' r' m0' = Ret (rc0, Some c) ->
  (forall x, In x rc0 -> too_far A (env_of A o e b r m) x = too_far A' (env_of A' o' e' b' r' m') x) ->
  exists rc oe, cast_ray A fuel o e b r m = Ret (rc, oe) /\ cast_ray A' fuel o' e' b' r' m' = Ret (rc, oe).
Proof.
  intros A A' fuel o e b r m m0 o' e' b' r' m' m0' rc0 c H0 H0' C C' T.
  destruct (cut_cast A fuel o e b r m m0 rc0 c H0 C) as [K1 K2]. destruct (cut_cast A' fuel o' e' b' r' m' m0' rc0 c H0' C') as [K1' K2'].
  set (far := too_far A _) in *. set (far' := too_far A' _) in *. clearbody far far'.
  destruct rc0 as [|y rc0]; [exists [], (Some c); split; [apply K1|apply K1']; constructor|]. cbn [tl] in *.
  assert (W : forall l, (forall x, In x l -> In x rc0) -> Forall (fun x => far x = false) l -> Forall (fun x => far' x = false) l).
  { intros l I F. rewrite Forall_forall in *. intros x Hx. rewrite <- T; [now apply F|right; now apply I]. }
  destruct (first_far far rc0) as [F|(pre & x & post & E & F & X)].
  - exists (y :: rc0), (Some c). split; [now apply K1|]. apply K1'. now apply W.
  - exists (y :: pre), None. split; [apply (K2 (y :: pre) x post); [cbn; now rewrite E|discriminate|exact F|exact X]|].
    apply (K2' (y :: pre) x post); [cbn; now rewrite E|discriminate| |].
    + cbn [tl]. apply W; [|exact F]. intros z Hz. rewrite E. apply in_or_app. now left.
    + rewrite <- T; [exact X|]. right. rewrite E. apply in_or_app. right. now left.
Qed.

Lemma far_real : forall d (o e b : list R) r m x, (d = 2 \/ d = 3)%nat -> length o = d -> length b = d -> length x = d -> 0 < m ->
  too_far RealA (env_of RealA (map Fin o) (map Fin e) (map Fin b) (Fin r) (Fin m)) x = Rlt_bool m (dist (cell_centre b r x) o).
Proof.
  intros d o e b r m x Hd Lo Lb Lx Hm. unfold too_far, env_of. cbn [re_max_len re_bmin re_resolution re_origin tltb tzero RealA xltb]. rewrite (Rlt_bool_true 0 m Hm).
  set (Q := fold_right Rplus 0 (map2 (fun x y => (x - y) * (x - y)) (cell_centre b r x) o)).
  assert (E : norm_squared RealA (vsub RealA (point_from_cell RealA x (map Fin b) (Fin r)) (map Fin o)) = Fin Q /\ 0 <= Q).
  { assert (SQ : forall z, 0 <= z * z) by (intro z; nra). unfold Q. destruct Hd; subst d; destruct o as [|o1 [|o2 [|o3 [|]]]]; try discriminate; destruct b as [|b1 [|b2 [|b3 [|]]]]; try discriminate; destruct x as [|x1 [|x2 [|x3 [|]]]]; try discriminate;
    cbn; (split; [f_equal; ring|repeat apply Rplus_le_le_0_compat; try apply SQ; lra]). }
  destruct E as [-> PQ]. cbn [tmul RealA xlift2 xltb]. unfold dist. fold Q.
  destruct (Rlt_le_dec m (sqrt Q)) as [H|H].
  - rewrite (Rlt_bool_true _ _ H). apply Rlt_bool_true. rewrite <- (sqrt_sqrt Q PQ). apply Rmult_le_0_lt_compat; lra.
  - rewrite (Rlt_bool_false _ _ H). apply Rlt_bool_false. rewrite <- (sqrt_sqrt Q PQ). pose proof (sqrt_pos Q). apply Rmult_le_compat; lra.
Qed.

Lemma between_off : forall d (o e b : point) r x i, (d = 2 \/ d = 3)%nat -> length o = d -> length e = d -> length b = d -> ray_short r o e b ->
  between (cell_from_point F32A o b r) (cell_from_point F32A e b r) x -> (i < d)%nat -> Rabs (nth i (off o b r x) 0) <= 2048 * B2R r.
Proof.
  intros d o e b r x i Hd Lo Le Lb HS [Lx Bx] Hi.
  set (oc := cell_from_point F32A o b r) in *. set (ec := cell_from_point F32A e b r) in *. assert (LC : length oc = d) by (unfold oc, cell_from_point; now apply map2_len).
  rewrite (nth_off d o b r Lo Lb) by (try assumption; exact (eq_trans Lx LC)). pose proof (r_pos o e b r (proj1 HS)) as Pr.
  destruct (near_coords d Hd o e b r Lo Le Lb HS i Hi) as ([Fo Ao] & [Fe Ae] & _ & DE).
  destruct (cell_of d Hd o e b r Lo Le Lb HS o i Lo Hi Fo Ao) as [GO _]. destruct (cell_of d Hd o e b r Lo Le Lb HS e i Le Hi Fe Ae) as [GE _]. fold oc in GO. fold ec in GE.
  specialize (Bx i ltac:(unfold cell in *; lia)). set (X := nth i x 0%Z) in *. set (P := nth i oc 0%Z) in *. set (Q := nth i ec 0%Z) in *.
  apply Rabs_le_inv in GO, GE, DE. assert (H : (P <= X <= Q \/ Q <= X <= P)%Z) by lia.
  assert (M : forall u v, (u <= v)%Z -> IZR u * B2R r <= IZR v * B2R r) by (intros u v K; apply IZR_le in K; apply Rmult_le_compat_r; lra).
  apply Rabs_le. destruct H as [[H1 H2]|[H1 H2]]; apply M in H1, H2; lra.
Qed.

Lemma same_limited : forall d (o e b : point) (r : f32), (d = 2 \/ d = 3)%nat -> length o = d -> length e = d -> length b = d -> ray_short r o e b ->
  off_borders (/ 16) (map real b) (real r) (map real o) -> off_borders (/ 16) (map real b) (real r) (map real e) ->
  no_corner_near (/ 16) (map real b) (real r) (map real o) (map real e) ->
  forall fuel m, fltb f0 m = true -> finite m -> real m <= 1048576 * real r -> limit_clear (/ 32) (real m) (map real b) (real r) (map real o) (map real e) ->
  (manhattan (cell_from_point F32A o b r) (cell_from_point F32A e b r) <= Z.of_nat fuel)%Z ->
  exists rc oe, cast_ray F32A fuel o e b r m = Ret (rc, oe) /\
    cast_ray RealA fuel (map Fin (map real o)) (map Fin (map real e)) (map Fin (map real b)) (Fin (real r)) (Fin (real m)) = Ret (rc, oe).
Proof.
  intros d o e b r Hd Lo Le Lb HS O1 O2 NC fuel m Pm Fm Bm LC F.
  destruct (same_ray d o e b r Hd Lo Le Lb HS O1 O2 NC) as (_ & _ & S). cbv zeta in S. destruct (S fuel f0 0 eq_refl ltac:(lra) F) as (path & C & C'). clear S.
  set (oc := cell_from_point F32A o b r) in *. set (ec := cell_from_point F32A e b r) in *.
  assert (Loc : length oc = d) by (unfold oc, cell_from_point; now apply map2_len).
  assert (RM : 0 < real m) by (apply fltb_iff in Pm; destruct Pm as (_ & _ & Q); rewrite (ext_finite m) in Q by exact Fm; exact Q).
  assert (M : forall (p : point) n, length p = n -> length (map real p) = n) by (intros; now rewrite map_length).
  apply (same_cut F32A RealA fuel o e b r m f0 _ _ _ _ (Fin (real m)) (Fin 0) path ec eq_refl); [cbn; apply Rlt_bool_false; lra|exact C|exact C'|].
  intros x Hx. destruct (cast_completed fuel d o e b r f0 path ec Hd Lo Le Lb C) as (_ & _ & _ & _ & BT). pose proof (BT x Hx) as B. fold oc in B.
  assert (Lx : length x = d) by (destruct B as [L _]; exact (eq_trans L Loc)).
  rewrite (far_real d _ _ _ _ _ _ Hd (M _ _ Lo) (M _ _ Lb) Lx RM).
  destruct (reach_cast d Hd o e b r Lo Le Lb HS (off_clear d o e b r Le O2) fuel f0 eq_refl F) as (path' & C2 & _ & T & _). fold oc ec in C2, T.
  assert (E : path' = path) by (rewrite C in C2; congruence). subst path'. destruct (T x ltac:(apply in_or_app; now left)) as (u & Hu & G).
  pose proof (fun i Hi => between_off d o e b r x i Hd Lo Le Lb HS B Hi) as BO.
  destruct (LC x u ltac:(rewrite map_length; congruence) Hu G) as [N|N].
  - rewrite Rlt_bool_false by (pose proof (proj1 (proj2 (short_finite _ _ _ _ HS))); lra).
    destruct (too_far F32A _ x) eqn:TF; [|reflexivity]. exfalso. apply (too_far_iff d) in TF; try assumption. destruct TF as [_ TF]. revert TF.
    apply (near_ok d Hd o e b r Lo Le Lb HS m Pm Fm Bm x (dist (cell_centre (map real b) (real r) x) (map real o)) Lx BO).
    + apply sqrt_pos.
    + change (real r) with (B2R r). rewrite (dist_off d o b r x Lx). rewrite sqrt_sqrt by apply sumsq_pos. lra.
    + exact N.
  - rewrite Rlt_bool_true by (pose proof (proj1 (proj2 (short_finite _ _ _ _ HS))); lra).
    destruct (too_far F32A _ x) eqn:TF; [reflexivity|]. exfalso.
    assert (NB : ~ beyond o b r m x). { intro BY. assert (K : too_far F32A (env_of F32A o e b r m) x = true) by (apply (too_far_iff d); auto). congruence. }
    pose proof (not_beyond_near d Hd o e b r Lo Le Lb HS m Pm Fm Bm x Lx BO NB) as D. change (B2R m) with (real m) in D. change (B2R r) with (real r) in D. lra.
Qed.

(** The sets of a scan from exact rays. *)
Lemma same_scan : forall d fuel (o : point) cloud (B : bounds) r m, (d = 2 \/ d = 3)%nat -> length o = d -> length (bmin B) = d -> fltb f0 m = true -> finite m -> real m <= 1048576 * real r -> (3072 <= fuel)%nat ->
  (forall p, In p (pc_points cloud) -> length p = d /\ clear_ray m r (bmin B) o p) ->
  let exact p := cast_ray RealA fuel (map Fin (map real o)) (map Fin (map real p)) (map Fin (map real (bmin B))) (Fin (real r)) (Fin (real m)) in
  exists free occ, cast_rays fuel o cloud B r m = Ret (free, occ) /\
    (forall c, In c occ <-> exists p rc, In p (pc_points cloud) /\ exact p = Ret (rc, Some c)) /\
    (forall c, In c free <-> (exists p rc oe, In p (pc_points cloud) /\ exact p = Ret (rc, oe) /\ In c rc) /\ ~ In c occ).
Proof.
  intros d fuel o cloud B r m Hd Lo Lb Pm Fm Bm F H exact.
  assert (S : forall p, In p (pc_points cloud) -> exists rc oe, cast_ray F32A fuel o p (bmin B) r m = Ret (rc, oe) /\ exact p = Ret (rc, oe)).
  { intros p Hp. destruct (H p Hp) as (Lp & HS & O1 & O2 & NC & LC). apply (same_limited d o p (bmin B) r Hd Lo Lp Lb HS O1 O2 NC fuel m Pm Fm Bm LC).
    pose proof (short_steps d Hd o p (bmin B) r Lo Lp Lb HS). lia. }
  destruct (cast_rays_returns fuel o cloud B r m) as [[free occ] R]; [intros p Hp; destruct (S p Hp) as (rc & oe & C & _); exists (rc, oe); exact C|].
  destruct (cast_rays_sets fuel o cloud B r m free occ R) as (_ & Ho & Hf & _). exists free, occ. split; [exact R|]. split.
  - intro c. rewrite Ho. split; intros (p & rc & Hp & C); exists p, rc; (split; [exact Hp|]); destruct (S p Hp) as (rc' & oe & C1 & C2); congruence.
  - intro c. rewrite Hf. split; intros [(p & rc & oe & Hp & C & I) N]; (split; [|exact N]); exists p, rc, oe; (split; [exact Hp|]); (split; [|exact I]); destruct (S p Hp) as (rc' & oe' & C1 & C2); congruence.
Qed.
