(** cast_rays: the free and occupied sets. *)
From Coq Require Import ZArith List Bool Lia Sorting.Permutation.
From Verif Require Import Base F32 Arith Geom RayCaster Spec RayProofs.
Open Scope Z_scope.

Lemma set_mem_In : forall c s, set_mem c s = true <-> In c s.
Proof.
  intros c s. unfold set_mem. rewrite existsb_exists. split.
  - intros (x & Hx & E). apply cell_eqb_eq in E. now subst.
  - intro H. exists c. split; [assumption|apply cell_eqb_refl].
Qed.
Lemma insert_In : forall s c x, In x (set_insert s c) <-> In x s \/ x = c.
Proof.
  intros s c x. unfold set_insert. destruct (set_mem c s) eqn:E.
  - apply set_mem_In in E. split; [auto|]. intros [H| ->]; assumption.
  - rewrite in_app_iff. cbn. intuition.
Qed.
Lemma insert_NoDup : forall s c, NoDup s -> NoDup (set_insert s c).
Proof.
  intros s c H. unfold set_insert. destruct (set_mem c s) eqn:E; [assumption|].
  apply (Permutation_NoDup (l := c :: s)). apply Permutation_cons_append.
  constructor; [|assumption]. intro I. apply set_mem_In in I. congruence.
Qed.
Lemma insert_all_In : forall l s x, In x (fold_left set_insert l s) <-> In x s \/ In x l.
Proof.
  induction l as [|a l IH]; intros s x; cbn; [intuition|]. rewrite IH, insert_In. intuition.
Qed.
Lemma insert_all_NoDup : forall l s, NoDup s -> NoDup (fold_left set_insert l s).
Proof. induction l; intros s H; cbn; [assumption|]. apply IHl. now apply insert_NoDup. Qed.
Lemma remove_In : forall s c x, In x (set_remove s c) <-> In x s /\ x <> c.
Proof.
  intros s c x. unfold set_remove. rewrite filter_In. rewrite negb_true_iff, cell_eqb_neq. intuition.
Qed.
Lemma remove_all_In : forall l s x, In x (fold_left set_remove l s) <-> In x s /\ ~ In x l.
Proof.
  induction l as [|a l IH]; intros s x; cbn; [intuition|]. rewrite IH, remove_In. intuition.
Qed.
Lemma remove_all_NoDup : forall l s, NoDup s -> NoDup (fold_left set_remove l s).
Proof. induction l; intros s H; cbn; [assumption|]. apply IHl. unfold set_remove. now apply NoDup_filter. Qed.

Section Rays.
Context (cast : point -> outcome (list cell * option cell)).
Definition ray_step (acc : cset * cset) (p : point) : outcome (cset * cset) :=
  do r <- cast p;
  let occ := match snd r with Some end_cell => set_insert (snd acc) end_cell | None => snd acc end in
  Ret (fold_left set_insert (fst r) (fst acc), occ).

Lemma fold_rays : forall pts f0 o0, NoDup f0 -> NoDup o0 -> forall f o, ofold ray_step (f0, o0) pts = Ret (f, o) ->
  NoDup f /\ NoDup o /\
  (forall p, In p pts -> exists r, cast p = Ret r) /\
  (forall c, In c f <-> In c f0 \/ exists p rc oe, In p pts /\ cast p = Ret (rc, oe) /\ In c rc) /\
  (forall c, In c o <-> In c o0 \/ exists p rc, In p pts /\ cast p = Ret (rc, Some c)).
Proof.
  induction pts as [|p pts IH]; intros f0 o0 N1 N2 f o H; cbn in H.
  - injection H as <- <-. repeat split; auto; try easy.
    + intros [|(p & rc & oe & [] & _)]; assumption.
    + intros [|(p & rc & [] & _)]; assumption.
  - unfold ray_step at 1 in H. destruct (cast p) as [[rc oe]| |] eqn:E; cbn [obind] in H; try discriminate.
    cbn [fst snd] in H. apply IH in H.
    2: now apply insert_all_NoDup. 2: destruct oe; [now apply insert_NoDup|assumption].
    destruct H as (M1 & M2 & A & F & O). split; [assumption|]. split; [assumption|]. split; [|split].
    + intros q [->|Hq]; [eauto|auto].
    + intro c. rewrite F, insert_all_In. split.
      * intros [[H|H]|(q & rc' & oe' & H1 & H2 & H3)]; [now left|right; exists p, rc, oe|right; exists q, rc', oe']; cbn; auto.
      * intros [H|(q & rc' & oe' & [->|H1] & H2 & H3)]; [auto| |right; exists q, rc', oe'; auto].
        rewrite E in H2. injection H2 as <- <-. auto.
    + intro c. rewrite O. split.
      * intros [H|(q & rc' & H1 & H2)]; [|right; exists q, rc'; cbn; auto].
        destruct oe as [x|]; [|auto]. apply insert_In in H. destruct H as [H| ->]; [auto|].
        right. exists p, rc. cbn. auto.
      * intros [H|(q & rc' & [->|H1] & H2)]; [left; destruct oe; [apply insert_In; auto|assumption]| |right; exists q, rc'; auto].
        rewrite E in H2. injection H2 as <- ->. left. apply insert_In. auto.
Qed.

Lemma fold_rays_returns : forall pts s, (forall p, In p pts -> exists r, cast p = Ret r) ->
  exists s', ofold ray_step s pts = Ret s'.
Proof.
  induction pts as [|p pts IH]; intros s H; cbn; [eauto|].
  destruct (H p (or_introl eq_refl)) as [r E]. unfold ray_step at 1. rewrite E. cbn [obind].
  apply IH. intros q Hq. apply H. now right.
Qed.
End Rays.

Lemma cast_rays_unfold : forall fuel o cloud b r m,
  cast_rays fuel o cloud b r m =
  do fo <- ofold (ray_step (fun p => cast_ray F32A fuel o p (bmin b) r m)) ([], []) (pc_points cloud);
  Ret (fold_left set_remove (snd fo) (fst fo), snd fo).
Proof. reflexivity. Qed.

(** C36 *)
Lemma cast_rays_sets : forall fuel o cloud b r m free occ,
  cast_rays fuel o cloud b r m = Ret (free, occ) ->
  let cast p := cast_ray F32A fuel o p (bmin b) r m in
  (forall p, In p (pc_points cloud) -> exists res, cast p = Ret res) /\
  (forall c, In c occ <-> exists p rc, In p (pc_points cloud) /\ cast p = Ret (rc, Some c)) /\
  (forall c, In c free <->
     (exists p rc oe, In p (pc_points cloud) /\ cast p = Ret (rc, oe) /\ In c rc) /\ ~ In c occ) /\
  NoDup free /\ NoDup occ.
Proof.
  intros fuel o cloud b r m free occ H cast. rewrite cast_rays_unfold in H.
  destruct (ofold _ _ _) as [[f oc]| |] eqn:E; cbn [obind] in H; try discriminate.
  injection H as <- <-. cbn [fst snd] in *.
  destruct (fold_rays _ _ _ _ (NoDup_nil _) (NoDup_nil _) _ _ E) as (N1 & N2 & A & F & O).
  split.
  - exact A.
  - split.
    + intro c. rewrite O. cbn. intuition.
    + split; [|split; [now apply remove_all_NoDup|assumption]].
      intro c. rewrite remove_all_In, F. cbn. intuition.
Qed.

Lemma cast_rays_returns : forall fuel o cloud b r m,
  (forall p, In p (pc_points cloud) -> exists res, cast_ray F32A fuel o p (bmin b) r m = Ret res) ->
  exists fo, cast_rays fuel o cloud b r m = Ret fo.
Proof.
  intros fuel o cloud b r m H. rewrite cast_rays_unfold.
  destruct (fold_rays_returns (fun p => cast_ray F32A fuel o p (bmin b) r m) (pc_points cloud) ([], []) H) as [s E].
  rewrite E. cbn [obind]. eauto.
Qed.

(** C37 *)
Lemma cast_rays_order : forall fuel o cloud cloud' b r m free occ,
  (forall p, In p (pc_points cloud) <-> In p (pc_points cloud')) ->
  cast_rays fuel o cloud b r m = Ret (free, occ) ->
  exists free' occ', cast_rays fuel o cloud' b r m = Ret (free', occ') /\
    Permutation free free' /\ Permutation occ occ'.
Proof.
  intros fuel o cloud cloud' b r m free occ S H.
  destruct (cast_rays_sets _ _ _ _ _ _ _ _ H) as (A & O & F & N1 & N2).
  destruct (cast_rays_returns fuel o cloud' b r m) as [[free' occ'] E].
  { intros p Hp. apply A. now apply S. }
  destruct (cast_rays_sets _ _ _ _ _ _ _ _ E) as (A' & O' & F' & N1' & N2').
  exists free', occ'. split; [assumption|].
  assert (OO : forall c, In c occ <-> In c occ').
  { intro c. rewrite O, O'. split; intros (p & rc & H1 & H2); exists p, rc; split; try assumption; now apply S. }
  split; apply NoDup_Permutation; try assumption.
  intro c. rewrite F, F', OO. split; intros ((p & rc & oe & H1 & H2 & H3) & H4); (split; [|assumption]);
  exists p, rc, oe; (split; [now apply S|auto]).
Qed.

(** A panic or an unfinished ray is the first one's. *)
Lemma cast_rays_fails : forall fuel o cloud b r m,
  (cast_rays fuel o cloud b r m = Panic ->
     exists p, In p (pc_points cloud) /\ cast_ray F32A fuel o p (bmin b) r m = Panic) /\
  (cast_rays fuel o cloud b r m = NoFuel ->
     exists p, In p (pc_points cloud) /\ cast_ray F32A fuel o p (bmin b) r m = NoFuel).
Proof.
  intros fuel o cloud b r m. rewrite cast_rays_unfold.
  generalize (([], []) : cset * cset) as s. induction (pc_points cloud) as [|p pts IH]; intro s; cbn [ofold].
  - split; discriminate.
  - unfold ray_step at 1 3. destruct (cast_ray F32A fuel o p (bmin b) r m) as [res| |] eqn:E; cbn [obind].
    + destruct (IH (fold_left set_insert (fst res) (fst s),
        match snd res with Some end_cell => set_insert (snd s) end_cell | None => snd s end)) as [I1 I2].
      split; intro H; [destruct (I1 H) as (q & Q1 & Q2)|destruct (I2 H) as (q & Q1 & Q2)]; exists q; cbn; auto.
    + split; [|discriminate]. intros _. exists p. cbn. auto.
    + split; [discriminate|]. intros _. exists p. cbn. auto.
Qed.
