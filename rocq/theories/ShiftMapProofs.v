(** C88: scans and maps with a corner moved by whole cells. *)
From Coq Require Import ZArith List Bool Reals Lra Lia Sorting.Permutation.
From Flocq Require Import Core BinarySingleNaN.
From Verif Require Import Base F32 Arith Geom NdArray GridMap RayCaster NoiseModel Spec SpecMap SpecNoise SpecShift ConverterProofs RayProofs CastProofs RaysProofs NdProofs NoiseProofs GridProofs ReturnProofs ShiftProofs ShiftFloatProofs MoveFloatProofs.
Open Scope Z_scope.

Lemma even_isu : forall q r, even_units q r -> exists k, 1 <= k <= 2 ^ 20 /\ isu q (2 * k) r.
Proof. intros q r [F (k & Hk & E)]. exists k. split; [exact Hk|]. split; [exact F|exact E]. Qed.

Lemma nth_reals : forall (p : point) i, (nth i (map real p) 0 = B2R (nth i p f0))%R.
Proof. intros p i. change 0%R with (real f0). apply map_nth. Qed.
Lemma carried_down : forall d q k (b b' p : point) r w, isu q (2 * k) r -> length b = d -> moved_down (real r) w (map real b) (map real b') -> carried d q k b b' w p p.
Proof.
  intros d q k b b' p r w [_ Er] Lb (_ & _ & M) i n n' a a' Hi Hn Hn' [_ E] [_ E']. pose proof (isu_fun q _ _ _ Hn Hn'). subst n'. specialize (M i).
  rewrite map_length, Lb, !nth_reals, E, E' in M. specialize (M Hi). unfold real in M. rewrite Er in M.
  assert (a' = a - nth i w 0 * (2 * k)); [|lia]. apply eq_IZR. rewrite minus_IZR, mult_IZR.
  pose proof (u_pos q) as U. apply (Rmult_eq_reg_r (bpow radix2 q)); [|lra]. rewrite M. ring.
Qed.
Lemma over_reals : forall d q (c p : point), length c = d -> above (map real c) (map real p) -> over d q c p.
Proof.
  intros d q c p Lc [_ A] i n a Hi [_ E] [_ E']. specialize (A i). rewrite map_length, Lc, !nth_reals, E, E' in A. specialize (A Hi).
  apply le_IZR. apply (Rmult_le_reg_r (bpow radix2 q)); [apply u_pos|exact A].
Qed.

Lemma ray_moved : forall d q (o e b b' : point) r w, (d = 2 \/ d = 3)%nat -> -60 <= q <= 30 -> length b = d -> even_units q r ->
  Forall (units q) b -> Forall (units q) b' -> in_sight q b b' o -> in_sight q b b' e -> moved_down (real r) w (map real b) (map real b') ->
  forall fuel m, Z.of_nat fuel <= 2 ^ 61 -> fltb f0 m = false \/ (finite m /\ (real m <= IZR (2 ^ 21) * bpow radix2 q)%R) ->
  cast_ray F32A fuel o e b' r m = outcome_map (shifted_ray w) (cast_ray F32A fuel o e b r m).
Proof.
  intros d q o e b b' r w Hd Hq Lb Er Ub Ub' (Uo & Ao & Ao') (Ue & Ae & Ae') Mv fuel m Hf Hm.
  destruct (even_isu q r Er) as (k & Hk & Hr).
  assert (Lo : length o = d). { destruct Ao as [L _]. rewrite !map_length in L. lia. }
  assert (Le : length e = d). { destruct Ae as [L _]. rewrite !map_length in L. lia. }
  assert (L' : length b' = d /\ length w = d). { destruct Mv as (L1 & L2 & _). rewrite !map_length in *. lia. } destruct L' as [Lb' Lw].
  apply (move_all d q k); try assumption.
  - now apply (carried_down d q k b b' _ r).
  - now apply (carried_down d q k b b' _ r).
  - now apply over_reals.
  - now apply over_reals.
  - now apply over_reals.
  - now apply over_reals.
Qed.

Section Sets.
Context (d : nat) (w : cell).
Hypothesis Lw : length w = d.
Notation sized := (Forall (fun c : cell => length c = d)).

Lemma mem_shift : forall c s, length c = d -> sized s -> set_mem (shifted w c) (map (shifted w) s) = set_mem c s.
Proof.
  intros c s Lc H. unfold set_mem. induction s as [|x s IH]; [reflexivity|]. cbn. apply Forall_cons_iff in H. destruct H as [Lx H].
  rewrite shifted_eqb by lia. f_equal. now apply IH.
Qed.
Lemma insert_sized : forall s c, length c = d -> sized s -> sized (set_insert s c).
Proof. intros s c Lc H. unfold set_insert. destruct (set_mem c s); [exact H|]. apply Forall_app. split; [exact H|constructor; auto]. Qed.
Lemma insert_shift : forall s c, length c = d -> sized s -> set_insert (map (shifted w) s) (shifted w c) = map (shifted w) (set_insert s c).
Proof. intros s c Lc H. unfold set_insert. rewrite mem_shift by assumption. destruct (set_mem c s); [reflexivity|]. now rewrite map_app. Qed.
Lemma inserts_shift : forall l s, sized l -> sized s -> fold_left set_insert (map (shifted w) l) (map (shifted w) s) = map (shifted w) (fold_left set_insert l s) /\ sized (fold_left set_insert l s).
Proof.
  induction l as [|x l IH]; intros s Hl Hs; cbn; [auto|]. apply Forall_cons_iff in Hl. destruct Hl as [Lx Hl]. rewrite insert_shift by auto. apply IH; [assumption|]. now apply insert_sized.
Qed.
Lemma remove_shift : forall s c, length c = d -> sized s -> set_remove (map (shifted w) s) (shifted w c) = map (shifted w) (set_remove s c) /\ sized (set_remove s c).
Proof.
  intros s c Lc H. unfold set_remove. induction s as [|x s IH]; [cbn; auto|]. apply Forall_cons_iff in H. destruct H as [Lx H]. destruct (IH H) as [E F]. cbn.
  rewrite shifted_eqb by lia. destruct (cell_eqb c x); cbn; [auto|]. split; [now rewrite E|constructor; auto].
Qed.
Lemma removes_shift : forall l s, sized l -> sized s -> fold_left set_remove (map (shifted w) l) (map (shifted w) s) = map (shifted w) (fold_left set_remove l s).
Proof.
  induction l as [|x l IH]; intros s Hl Hs; cbn; [auto|]. apply Forall_cons_iff in Hl. destruct Hl as [Lx Hl]. destruct (remove_shift s x Lx Hs) as [E F]. rewrite E. now apply IH.
Qed.

Lemma fold_shift : forall cast cast' (pts pts' : list point) f oc, Forall2 (fun p p' => cast' p' = outcome_map (shifted_ray w) (cast p)) pts pts' ->
  (forall p rc oe, In p pts -> cast p = Ret (rc, oe) -> sized rc /\ forall c, oe = Some c -> length c = d) -> sized f -> sized oc ->
  ofold (ray_step cast') (map (shifted w) f, map (shifted w) oc) pts' = outcome_map (shifted_sets w) (ofold (ray_step cast) (f, oc) pts) /\
  forall s, ofold (ray_step cast) (f, oc) pts = Ret s -> sized (fst s) /\ sized (snd s).
Proof.
  intros cast cast' pts pts' f oc H. revert f oc. induction H as [|p p' pts pts' Hc H IH]; intros f oc Hs Hf Ho; cbn.
  - split; [reflexivity|]. intros s E. injection E as <-. auto.
  - unfold ray_step at 1 3 5. rewrite Hc. destruct (cast p) as [[rc oe]| |] eqn:E; cbn [outcome_map obind]; try (split; [reflexivity|discriminate]).
    destruct (Hs p rc oe (or_introl eq_refl) E) as [Sr So]. cbn [shifted_ray fst snd].
    destruct (inserts_shift rc f Sr Hf) as [E1 S1]. rewrite E1.
    destruct oe as [c|]; cbn [option_map].
    + rewrite insert_shift by auto. apply IH; auto.
      * intros q rc' oe' Hq. apply Hs. now right.
      * apply insert_sized; auto.
    + apply IH; auto. intros q rc' oe' Hq. apply Hs. now right.
Qed.
End Sets.

Lemma cell_len : forall d (p b : point) r, length p = d -> length b = d -> length (cell_from_point F32A p b r) = d.
Proof. intros d p b r Lp Lb. destruct (cell_from_point_coords p b r) as [H _]; congruence. Qed.
Lemma ray_sized : forall fuel d o e b r m rc oe, (d = 2 \/ d = 3)%nat -> length o = d -> length e = d -> length b = d ->
  cast_ray F32A fuel o e b r m = Ret (rc, oe) -> Forall (fun c => length c = d) rc /\ forall c, oe = Some c -> length c = d.
Proof.
  intros fuel d o e b r m rc oe Hd Lo Le Lb H. split.
  - destruct (cast_connected _ _ _ _ _ _ _ _ _ Hd Lo Le Lb H) as [C F]. destruct rc as [|c l]; [constructor|].
    specialize (F c l eq_refl). assert (Lc : length c = d). { rewrite F. apply cell_len; assumption. }
    constructor; [exact Lc|]. pose proof (one_step_len _ _ _ C) as Q. rewrite Lc in Q. exact Q.
  - intros c ->. destruct (cast_completed _ _ _ _ _ _ _ _ _ Hd Lo Le Lb H) as (-> & _). apply cell_len; assumption.
Qed.

Lemma rays_moved : forall d fuel o o' cloud cloud' bs bs' r m w, (d = 2 \/ d = 3)%nat -> length w = d -> length o = d -> length (bmin bs) = d ->
  (forall p, In p (pc_points cloud) -> length p = d) ->
  Forall2 (fun p p' => cast_ray F32A fuel o' p' (bmin bs') r m = outcome_map (shifted_ray w) (cast_ray F32A fuel o p (bmin bs) r m)) (pc_points cloud) (pc_points cloud') ->
  cast_rays fuel o' cloud' bs' r m = outcome_map (shifted_sets w) (cast_rays fuel o cloud bs r m).
Proof.
  intros d fuel o o' cloud cloud' bs bs' r m w Hd Lw Lo Lb Len R. rewrite !cast_rays_unfold.
  destruct (fold_shift d w Lw (fun p => cast_ray F32A fuel o p (bmin bs) r m) (fun p => cast_ray F32A fuel o' p (bmin bs') r m) (pc_points cloud) (pc_points cloud') [] [] R) as [E S]; auto.
  - intros p rc oe Hp H. apply (ray_sized fuel d o p (bmin bs) r m); auto.
  - cbn [map] in E. set (X := ofold (ray_step (fun p => cast_ray F32A fuel o p (bmin bs) r m)) ([], []) (pc_points cloud)) in *.
    set (Y := ofold (ray_step (fun p => cast_ray F32A fuel o' p (bmin bs') r m)) ([], []) (pc_points cloud')) in *. rewrite E.
    clearbody X Y. destruct X as [[f oc]| |]; cbn [outcome_map obind]; try reflexivity.
    destruct (S _ eq_refl) as [S1 S2]. unfold shifted_sets. cbn [fst snd] in *. rewrite (removes_shift d) by assumption. reflexivity.
Qed.

Lemma scan_moved : forall d q o cloud bs bs' r w, (d = 2 \/ d = 3)%nat -> -60 <= q <= 30 -> length (bmin bs) = d -> even_units q r ->
  Forall (units q) (bmin bs) -> Forall (units q) (bmin bs') -> (forall p, p = o \/ In p (pc_points cloud) -> in_sight q (bmin bs) (bmin bs') p) ->
  moved_down (real r) w (map real (bmin bs)) (map real (bmin bs')) ->
  forall fuel m, Z.of_nat fuel <= 2 ^ 61 -> fltb f0 m = false \/ (finite m /\ (real m <= IZR (2 ^ 21) * bpow radix2 q)%R) ->
  cast_rays fuel o cloud bs' r m = outcome_map (shifted_sets w) (cast_rays fuel o cloud bs r m).
Proof.
  intros d q o cloud bs bs' r w Hd Hq Lb Er Ub Ub' Sg Mv fuel m Hf Hm.
  assert (Lw : length w = d). { destruct Mv as (_ & L & _). rewrite map_length in L. lia. }
  assert (Len : forall p, p = o \/ In p (pc_points cloud) -> length p = d).
  { intros p Hp. destruct (Sg p Hp) as (_ & [L _] & _). rewrite !map_length in L. lia. }
  apply (rays_moved d); auto.
  assert (R : forall p, In p (pc_points cloud) -> cast_ray F32A fuel o p (bmin bs') r m = outcome_map (shifted_ray w) (cast_ray F32A fuel o p (bmin bs) r m)).
  { intros p Hp. apply (ray_moved d q); auto. }
  clear -R. induction (pc_points cloud) as [|p l IH]; constructor.
  - apply R. now left.
  - apply IH. intros x Hx. apply R. now right.
Qed.

Lemma map_moved : forall d q fuel of oo of' oo' m g h g1 h1 o cloud w g', (d = 2 \/ d = 3)%nat -> -60 <= q <= 30 -> Z.of_nat fuel <= 2 ^ 61 ->
  is_order of -> is_order oo -> is_order of' -> is_order oo' -> storage_ok (gm_data g) -> storage_ok (gm_data h) ->
  gm_expand_bounds g (pc_bounds cloud) f0 = Ret g1 -> gm_expand_bounds h (pc_bounds cloud) f0 = Ret h1 -> same_world w g1 h1 ->
  length (bmin (gm_bounds g1)) = d -> even_units q (gm_resolution g1) ->
  Forall (units q) (bmin (gm_bounds g1)) -> Forall (units q) (bmin (gm_bounds h1)) ->
  (forall p, p = o \/ In p (pc_points cloud) -> in_sight q (bmin (gm_bounds g1)) (bmin (gm_bounds h1)) p) ->
  fltb f0 (max_range m) = false \/ (finite (max_range m) /\ (real (max_range m) <= IZR (2 ^ 21) * bpow radix2 q)%R) ->
  integrate_point_cloud fuel of oo m g o cloud = Ret g' ->
  exists h', integrate_point_cloud fuel of' oo' m h o cloud = Ret h' /\ same_world w g' h' /\
    (forall c, cells_in_isize c -> (forall x v, length x = length w -> cells_in_isize x -> gm_get g1 x = Ret v -> c <> shifted w x) -> gm_get h' c = gm_get h1 c).
Proof.
  intros d q fuel of oo of' oo' m g h g1 h1 o cloud w g' Hd Hq Hf O1 O2 O3 O4 Sg Sh Eg Eh SW Lb Er Ub Ub' Si Hm H.
  destruct (integrate_spec _ _ _ _ _ _ _ _ O1 O2 Sg H) as (g1' & free & occ & E1 & Ec & S1 & S' & Sh1 & B1 & R1 & T1 & K1 & Hocc & Hfree & Hrest & _ & _).
  rewrite Eg in E1. injection E1 as <-. destruct SW as (RH & Mv & V).
  destruct (expand_storage _ _ _ _ Sh Eh) as (S2 & X1 & X2 & X3 & X4).
  destruct (expand_storage _ _ _ _ Sg Eg) as (_ & Y1 & Y2 & Y3 & Y4).
  pose proof (scan_moved d q o cloud (gm_bounds g1) (gm_bounds h1) (gm_resolution g1) w Hd Hq Lb Er Ub Ub' Si Mv fuel (max_range m) Hf Hm) as SM.
  rewrite Ec in SM. cbn [outcome_map shifted_sets fst snd] in SM.
  destruct (cast_rays_isize _ _ _ _ _ _ _ _ Ec) as [If Io]. destruct (cast_rays_isize _ _ _ _ _ _ _ _ SM) as [If' Io'].
  rewrite Forall_forall in If, Io, If', Io'.
  assert (Lw : length w = d). { destruct Mv as (_ & L & _). rewrite map_length in L. lia. }
  assert (INJ : forall l x, Forall (fun c : cell => length c = d) l -> length x = d -> In (shifted w x) (map (shifted w) l) -> In x l).
  { intros l x Sl Lx I. apply in_map_iff in I. destruct I as (y & E & I). rewrite Forall_forall in Sl. apply shifted_inj in E; [now subst| |]; rewrite ?(Sl y I); lia. }
  assert (SZ : Forall (fun c : cell => length c = d) free /\ Forall (fun c : cell => length c = d) occ).
  { destruct (cast_rays_sets _ _ _ _ _ _ _ _ Ec) as (A & AO & AF & _).
    assert (Len : forall p, p = o \/ In p (pc_points cloud) -> length p = d).
    { intros p Hp. destruct (Si p Hp) as (_ & [L _] & _). rewrite !map_length in L. lia. }
    split; apply Forall_forall; intros x Hx.
    - apply AF in Hx. destruct Hx as [(p & rc & oe & Hp & E & I) _]. apply (ray_sized fuel d o p) in E; auto. destruct E as [E _]. rewrite Forall_forall in E. auto.
    - apply AO in Hx. destruct Hx as (p & rc & Hp & E). apply (ray_sized fuel d o p) in E; auto. now apply E. }
  destruct SZ as [Zf Zo].
  assert (IN : forall x, In x free \/ In x occ -> in_range (nd_shape (gm_data h1)) (shifted w x)).
  { intros x Hx. assert (Ix : cells_in_isize x) by (destruct Hx; auto).
    assert (Ix' : cells_in_isize (shifted w x)). { destruct Hx as [Hx|Hx]; [apply If'|apply Io']; now apply in_map. }
    assert (G : exists v, gm_get g1 x = Ret v). { destruct Hx as [Hx|Hx]; [destruct (Hfree x Hx) as (v & G & _)|destruct (Hocc x Hx) as (v & G & _)]; eauto. }
    destruct G as [v G]. assert (Lx : length x = length w). { rewrite Lw. rewrite Forall_forall in Zf, Zo. destruct Hx; auto. } specialize (V x v Lx Ix Ix' G). destruct (gm_get_iff h1 (shifted w x) S2 Ix') as [_ Q].
    destruct (in_shape (nd_shape (gm_data h1)) (shifted w x)) eqn:I; [now apply in_shape_iff|].
    rewrite Q in V; [discriminate V|]. intro R. apply in_shape_iff in R. congruence. }
  destruct (integrate_iff fuel of' oo' m h h1 o cloud O3 O4 S2 Eh) as [[_ Q] _].
  destruct Q as [h' Eh'].
  { intros p Hp. destruct (cast_rays_sets _ _ _ _ _ _ _ _ SM) as (A & AO & AF & _). destruct (A p Hp) as [[rc oe] E]. exists rc, oe. rewrite RH. split; [exact E|]. split.
    - apply Forall_forall. intros x Hx. destruct (in_dec (list_eq_dec Z.eq_dec) x (map (shifted w) occ)) as [Y|Y].
      + apply in_map_iff in Y. destruct Y as (y & <- & Y). apply IN. now right.
      + assert (F : In x (map (shifted w) free)). { apply AF. split; [|exact Y]. exists p, rc, oe. auto. }
        apply in_map_iff in F. destruct F as (y & <- & F). apply IN. now left.
    - intros c ->. assert (F : In c (map (shifted w) occ)). { apply AO. exists p, rc. auto. }
      apply in_map_iff in F. destruct F as (y & <- & F). apply IN. now right. }
  exists h'. split; [exact Eh'|].
  destruct (integrate_spec _ _ _ _ _ _ _ _ O3 O4 Sh Eh') as (h1' & free' & occ' & E2 & Ec' & _ & _ & Sh2 & B2 & R2 & _ & _ & Hocc' & Hfree' & Hrest' & _ & _).
  rewrite Eh in E2. injection E2 as <-. rewrite RH, SM in Ec'. injection Ec' as <- <-.
  split; [split; [|split]|].
  - rewrite R1, R2. congruence.
  - rewrite B1, B2, R1. rewrite <- Y1. exact Mv.
  - intros c v Lc Ic Ic' G. destruct (in_dec (list_eq_dec Z.eq_dec) c occ) as [Y|Y].
    + destruct (Hocc c Y) as (x & G1 & G2). destruct (Hocc' (shifted w c) (in_map _ _ _ Y)) as (x' & G3 & G4).
      rewrite (V c x Lc Ic Ic' G1) in G3. injection G3 as <-. congruence.
    + destruct (in_dec (list_eq_dec Z.eq_dec) c free) as [Y'|Y'].
      * destruct (Hfree c Y') as (x & G1 & G2). destruct (Hfree' (shifted w c) (in_map _ _ _ Y')) as (x' & G3 & G4).
        rewrite (V c x Lc Ic Ic' G1) in G3. injection G3 as <-. congruence.
      * rewrite Hrest in G by assumption. rewrite Hrest'; [now apply V|exact Ic'| |]; intro I; apply INJ in I; try assumption; try congruence; contradiction.
  - intros c Ic N. apply Hrest'; [exact Ic| |]; intro I; apply in_map_iff in I; destruct I as (x & E & I); symmetry in E.
    + destruct (Hocc x I) as (v & G & _). rewrite Forall_forall in Zo. apply (N x v); auto. rewrite Lw. auto.
    + destruct (Hfree x I) as (v & G & _). rewrite Forall_forall in Zf. apply (N x v); auto. rewrite Lw. auto.
Qed.
