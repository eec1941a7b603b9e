(** When a ray returns, and when a scan is taken in. *)
From Coq Require Import ZArith List Bool Reals Lra Lia Permutation.
From Flocq Require Import Core BinarySingleNaN.
From Verif Require Import Base F32 FloatFacts Arith Geom NdArray GridMap RayCaster NoiseModel Spec SpecMap SpecNoise SpecRay GeomProofs BoundsProofs CloudProofs NdProofs GridProofs ExpandProofs MapProofs MathProofs RayProofs CastProofs RaysProofs RayRange NoiseProofs MergeProofs.
Open Scope Z_scope.

(** ** The walk leaves the first cell *)
Lemma moves_stands : forall d (o e b : point) r m, (d = 2 \/ d = 3)%nat -> length o = d -> length e = d -> length b = d ->
  let oc := cell_from_point F32A o b r in well_timed o e b r oc -> oc <> cell_from_point F32A e b r -> moves o e b r oc ->
  nth (select_dim F32A (tm_of F32A o e b r)) (map f32_to_isize (re_step F32A (env_of F32A o e b r m))) 0 <> 0.
Proof.
  intros d o e b r m Hd Lo Le Lb oc W N M E. pose proof (good_start d o e b r m Hd Lo Le Lb W N) as G. fold oc in G.
  pose proof (good_select d _ _ Hd _ G) as Hi. cbn [snd] in Hi.
  destruct (go_unit d _ _ _ G _ Hi) as [U|[U|(_ & U & _)]]; try lia. cbn [snd] in U.
  apply Exists_exists in M. destruct M as (t & It & Lt). rewrite <- (times_env d) in It by assumption. apply In_nth with (d := finf) in It. destruct It as (j & Hj & Ej).
  assert (LT := go_times d _ _ _ G). cbn [snd] in LT. change (T F32A) with f32 in *. rewrite LT in Hj.
  destruct (Nat.eq_dec j (select_dim F32A (tm_of F32A o e b r))) as [->|Nj].
  - rewrite U in Ej. rewrite <- Ej in Lt. discriminate Lt.
  - pose proof (chosen d _ _ Hd _ j G Hj Nj) as C. cbn [snd] in C. rewrite U, Ej in C. destruct C as [C|[C _]].
    + apply fltb_iff in C. apply fltb_iff in Lt. lra.
    + apply fleb_iff in C. apply fltb_iff in Lt. lra.
Qed.
Lemma range_moves : forall d (o e b : point) r, (d = 2 \/ d = 3)%nat -> length o = d -> length e = d -> length b = d -> ray_range r o e b ->
  let oc := cell_from_point F32A o b r in oc <> cell_from_point F32A e b r -> moves o e b r oc.
Proof.
  intros d o e b r Hd Lo Le Lb HR oc N. destruct (range_setup d Hd o e b r Lo Le Lb HR f0 N) as (k & _ & S).
  destruct (apart d Hd o e b r Lo Le Lb HR N) as (i & Hi & D). destruct (S i Hi) as [(Q & _)|(_ & F & _)]; [contradiction|].
  apply Exists_exists. exists (nth i (tm_of F32A o e b r) finf). split; [|now apply fltb_fin_inf].
  rewrite <- (times_env d) by assumption. apply nth_In. 
  pose proof (loop_ok_init F32A f32_sig d o e b r f0 Hd Lo Le Lb N) as OK. assert (LT := lo_tm _ _ _ _ _ OK). change (T F32A) with f32 in *. rewrite LT. exact Hi.
Qed.

(** ** The loop, once more *)
Lemma next_isize : forall e cur tm, cells_in_isize cur -> in_isize (nth (select_dim F32A tm) cur 0 + t_to_isize F32A (nth (select_dim F32A tm) (re_step F32A e) (tzero F32A))) = true ->
  cells_in_isize (next_cell F32A e cur tm).
Proof.
  intros e cur tm I C3. apply Forall_forall. intros z Hz. unfold next_cell in Hz. apply In_nth with (d := 0) in Hz. destruct Hz as (j & Hj & <-). rewrite upd_length in Hj.
  destruct (Nat.eq_dec (select_dim F32A tm) j) as [Ej|Ej].
  - subst j. rewrite nth_upd_same by lia. unfold in_isize in C3. rewrite andb_true_iff, !Z.leb_le in C3. exact C3.
  - rewrite nth_upd_other by assumption. exact (proj1 (Forall_forall _ _) I _ (nth_In _ _ Hj)).
Qed.
(** Where the loop stops. *)
Lemma loop_stops : forall fuel e cur tm acc rc oe, cells_in_isize cur -> ray_loop F32A fuel e cur tm acc = Ret (rc, oe) ->
  let f k := fst (walk (re_step F32A e) (re_t_delta F32A e) k (cur, tm)) in
  exists n, rc = acc ++ map f (seq 1 n) /\ cells_in_isize (f (S n)) /\
    (forall k, (1 <= k <= n)%nat -> f k <> re_end_cell F32A e /\ too_far F32A e (f k) = false) /\
    ((f (S n) = re_end_cell F32A e /\ oe = Some (re_end_cell F32A e)) \/ (f (S n) <> re_end_cell F32A e /\ too_far F32A e (f (S n)) = true /\ oe = None)).
Proof.
  induction fuel as [|fuel IH]; intros e cur tm acc rc oe I R f; [discriminate R|]. rewrite loop_unfold in R. cbv zeta in R.
  destruct (in_isize _) eqn:C3; [|discriminate R]. pose proof (next_isize _ _ _ I C3) as I'. destruct (cell_eqb _ _) eqn:Q.
  - injection R as <- <-. apply cell_eqb_eq in Q. exists 0%nat. cbn [seq map]. rewrite app_nil_r. split; [reflexivity|]. split; [exact I'|]. split; [lia|]. left. split; [exact Q|reflexivity].
  - apply cell_eqb_neq in Q. destruct (too_far _ _ _) eqn:T.
    + injection R as <- <-. exists 0%nat. cbn [seq map]. rewrite app_nil_r. split; [reflexivity|]. split; [exact I'|]. split; [lia|]. right. split; [exact Q|]. split; [exact T|reflexivity].
    + destruct (IH _ _ _ _ _ _ I' R) as (n & -> & In & F' & H). exists (S n). split; [|split; [exact In|split; [|exact H]]].
      * rewrite <- app_assoc. f_equal. cbn [seq map app]. f_equal. rewrite <- (seq_shift n 1), map_map. reflexivity.
      * intros [|[|k]] Hk; [lia|split; [exact Q|exact T]|]. exact (F' (S k) ltac:(lia)).
Qed.
Lemma loop_ends : forall n d e cur tm acc y, (d = 2 \/ d = 3)%nat -> good d (re_step F32A e) (re_t_delta F32A e) (cur, tm) ->
  ahead d (re_step F32A e) (re_t_delta F32A e) (cur, tm) y -> cells_in_isize cur -> cells_in_isize y ->
  cur <> y -> (y = re_end_cell F32A e \/ too_far F32A e y = true) -> manhattan cur y = Z.of_nat n ->
  exists res, ray_loop F32A n e cur tm acc = Ret res.
Proof.
  induction n as [|n IH]; intros d e cur tm acc y Hd G A I1 I2 N U M.
  { exfalso. apply N. apply manhattan_zero; [|exact M]. rewrite (proj1 A). apply (go_cell _ _ _ _ G). }
  assert (N' : y <> fst (cur, tm)) by (cbn [fst]; congruence).
  pose proof (good_select _ _ _ Hd _ G) as Hi. cbn [snd] in Hi. pose proof (go_cell _ _ _ _ G) as Lc. cbn [fst] in Lc.
  destruct (ahead_on d _ _ Hd _ _ G A N') as [A' P]. pose proof (manhattan_move d _ _ _ _ Hd G A N') as M'. cbn [fst] in M'.
  pose proof (proj1 (proj2 A) _ Hi) as A1. pose proof (proj1 A) as Ly. cbn [fst snd] in A1, P.
  pose proof (go_unit _ _ _ _ G _ Hi) as SG. cbn [snd] in SG.
  assert (ST : f32_to_isize (nth (select_dim F32A tm) (re_step F32A e) f0) = nth (select_dim F32A tm) (map f32_to_isize (re_step F32A e)) 0).
  { apply nth_sg. pose proof (go_signs _ _ _ _ G) as X. lia. }
  assert (C1 := proj1 (Forall_forall _ _) I1 (nth (select_dim F32A tm) cur 0) ltac:(apply nth_In; lia)).
  assert (C2 := proj1 (Forall_forall _ _) I2 (nth (select_dim F32A tm) y 0) ltac:(apply nth_In; lia)).
  assert (C3 : in_isize (nth (select_dim F32A tm) cur 0 + t_to_isize F32A (nth (select_dim F32A tm) (re_step F32A e) (tzero F32A))) = true).
  { change (t_to_isize F32A) with f32_to_isize. change (tzero F32A) with f0. rewrite ST. cbv beta in C1, C2. unfold in_isize in *. apply andb_true_intro. unfold borders in *. rewrite !Z.leb_le. destruct SG as [E|[E|(E & _)]]; rewrite E in *; lia. }
  rewrite loop_unfold. cbv zeta. rewrite C3. destruct (cell_eqb _ _) eqn:Q; [eauto|]. apply cell_eqb_neq in Q.
  destruct (too_far F32A e (next_cell F32A e cur tm)) eqn:T; [eauto|].
  apply (IH d _ _ _ _ y); try assumption.
  - exact (good_move _ _ _ Hd _ G).
  - now apply next_isize.
  - intro E. rewrite E in *. destruct U as [U|U]; congruence.
  - change (next_cell F32A e cur tm) with (fst (move (re_step F32A e) (re_t_delta F32A e) (cur, tm))). rewrite M'. lia.
Qed.

(** ** What a ray is *)
Lemma passes_start : forall d (o e b : point) r c, length c = d -> passes d o e b r c c.
Proof.
  intros d o e b r c L. split; [exact L|]. assert (B : forall i, borders c c i = 0%nat) by (intro i; unfold borders; now rewrite Z.sub_diag).
  split; intros i; [intros Hi; rewrite B; lia|]. intros j _ _ _ P. rewrite B in P. lia.
Qed.
Lemma ray_result : forall fuel d (o e b : point) r m rc oe, (d = 2 \/ d = 3)%nat -> length o = d -> length e = d -> length b = d ->
  let oc := cell_from_point F32A o b r in let ec := cell_from_point F32A e b r in timely o e b r oc ec ->
  cast_ray F32A fuel o e b r m = Ret (rc, oe) ->
  exists z, passes d o e b r oc z /\ cells_in_isize z /\ ends_ray o b r m oc ec z /\ (z = ec -> oe = Some ec) /\ (z <> ec -> oe = None) /\
    (forall x, In x rc <-> passes d o e b r oc x /\ manhattan oc x < manhattan oc z) /\
    (forall x, In x rc -> ~ ends_ray o b r m oc ec x).
Proof.
  intros fuel d o e b r m rc oe Hd Lo Le Lb oc ec TI R.
  assert (Lc : length oc = d) by (unfold oc, cell_from_point; now apply map2_len).
  rewrite cast_unfold in R. destruct (_ || _); [|discriminate R]. fold oc ec in R. destruct (cell_eqb oc _) eqn:Q.
  - apply cell_eqb_eq in Q. injection R as <- <-. exists ec. rewrite <- Q at 1 2. split; [now apply passes_start|]. split; [apply cell_isize|]. split; [now left|]. split; [reflexivity|]. split; [congruence|].
    split; [|intros x []]. intro x. rewrite <- Q, manhattan_refl. pose proof (manhattan_nonneg oc x). split; [intros []|lia].
  - apply cell_eqb_neq in Q. destruct (TI Q) as [W MO]. pose proof (good_start d o e b r m Hd Lo Le Lb W Q) as G. fold oc in G.
    pose proof (moves_stands d o e b r m Hd Lo Le Lb W Q MO) as NS0. fold oc in NS0.
    assert (IO : cells_in_isize oc) by apply cell_isize.
    destruct (loop_stops _ _ _ _ _ _ _ IO R) as (n & En & In & F & H). set (f := fun k => fst (walk (re_step F32A (env_of F32A o e b r m)) (re_t_delta F32A (env_of F32A o e b r m)) k (oc, tm_of F32A o e b r))) in *.
    change (cells_in_isize (f (S n))) in In. change (forall k, (1 <= k <= n)%nat -> f k <> ec /\ too_far F32A (env_of F32A o e b r m) (f k) = false) in F.
    change ((f (S n) = ec /\ oe = Some ec) \/ (f (S n) <> ec /\ too_far F32A (env_of F32A o e b r m) (f (S n)) = true /\ oe = None)) in H.
    assert (E0 : [oc] ++ map f (seq 1 n) = map f (seq 0 (S n))) by reflexivity. rewrite E0 in En.
    assert (Lf : forall k, length (f k) = d) by (intro k; apply (go_cell d _ _ _ (good_walk d _ _ Hd k _ G))).
    assert (TF : forall k, too_far F32A (env_of F32A o e b r m) (f k) = true <-> fltb f0 m = true /\ beyond o b r m (f k)) by (intro k; apply (too_far_iff d); auto).
    assert (NS : forall k, (k < S n)%nat -> ~ nth (select_dim F32A (snd (walk (re_step F32A (env_of F32A o e b r m)) (re_t_delta F32A (env_of F32A o e b r m)) k (oc, tm_of F32A o e b r)))) (map f32_to_isize (re_step F32A (env_of F32A o e b r m))) 0 = 0).
    { intros k Hk S0. assert (W1 : forall j, f (k + j)%nat = f k).
      { intro j. unfold f. rewrite walk_add, (walk_stands d); [reflexivity|assumption|now apply good_walk|exact S0]. }
      pose proof (W1 (S n - k)%nat) as W2. replace (k + (S n - k))%nat with (S n) in W2 by lia. rewrite W2 in H.
      destruct k as [|k]; [exact (NS0 S0)|]. destruct (F (S k) ltac:(lia)) as [F1 F2]. destruct H as [[H _]|(_ & H & _)]; [contradiction|]. rewrite F2 in H. discriminate H. }
    assert (D : forall k, (k <= S n)%nat -> manhattan oc (f k) = Z.of_nat k).
    { intros k Hk. pose proof (walk_distance d _ _ Hd k _ G) as Dk. cbn [fst] in Dk. fold (f k) in Dk. apply Dk. intros j Hj. apply NS. lia. }
    assert (NZ : f (S n) <> oc). { intro E. pose proof (D (S n) ltac:(lia)) as X. rewrite E, manhattan_refl in X. lia. }
    exists (f (S n)). split; [rewrite (passes_ahead d o e b r m) by assumption; now apply walk_ahead|]. split; [exact In|]. split; [|split; [|split; [|split]]].
    + destruct H as [[H _]|(H1 & H2 & _)]; [now left|right]. apply TF in H2. tauto.
    + intro E. destruct H as [[_ H]|(H & _)]; [exact H|contradiction].
    + intro E. destruct H as [[H _]|(_ & _ & H)]; [contradiction|exact H].
    + intro x. rewrite (passes_ahead d o e b r m) by assumption. fold oc. rewrite En, (D (S n)) by lia. split.
      * intro I. apply in_map_iff in I. destruct I as (k & <- & Hk). apply in_seq in Hk. split; [now apply walk_ahead|]. rewrite D; lia.
      * intros [A M]. apply in_map_iff. exists (Z.to_nat (manhattan oc x)). pose proof (manhattan_nonneg oc x). split; [|apply in_seq; lia].
        apply (walk_arrives d); try assumption. cbn [fst]. lia.
    + intros x I EX. rewrite En in I. apply in_map_iff in I. destruct I as (k & <- & Hk). apply in_seq in Hk. destruct k as [|k].
      * change (f 0%nat) with oc in EX. destruct EX as [EX|(EX & _)]; congruence.
      * destruct (F (S k) ltac:(lia)) as [F1 F2]. destruct EX as [EX|(_ & _ & EX)]; [contradiction|]. apply TF in EX. rewrite F2 in EX. discriminate EX.
Qed.
Lemma ray_returns_iff : forall d (o e b : point) r m, (d = 2 \/ d = 3)%nat -> length o = d -> length e = d -> length b = d ->
  let oc := cell_from_point F32A o b r in let ec := cell_from_point F32A e b r in timely o e b r oc ec ->
  ((exists fuel res, cast_ray F32A fuel o e b r m = Ret res) <->
   exists z, passes d o e b r oc z /\ cells_in_isize z /\ ends_ray o b r m oc ec z).
Proof.
  intros d o e b r m Hd Lo Le Lb oc ec TI.
  assert (Lc : length oc = d) by (unfold oc, cell_from_point; now apply map2_len).
  assert (LO : (Nat.eqb (length o) 2 || Nat.eqb (length o) 3) = true) by (rewrite Lo; destruct Hd as [-> | ->]; reflexivity).
  split.
  - intros (fuel & [rc oe] & R). destruct (ray_result _ _ _ _ _ _ _ _ _ Hd Lo Le Lb TI R) as (z & P & I & Ez & _). exists z. auto.
  - intros (z & P & I & Ez). destruct (cell_eqb oc ec) eqn:Q.
    + exists 0%nat, ([], Some ec). rewrite cast_unfold. fold oc ec. rewrite Q. change (T F32A) with f32. now rewrite LO.
    + pose proof (proj1 (cell_eqb_neq _ _) Q) as N. destruct (TI N) as [W MO]. pose proof (good_start d o e b r m Hd Lo Le Lb W N) as G. fold oc in G.
      rewrite (passes_ahead d o e b r m) in P by assumption. fold oc in P.
      assert (NZ : oc <> z) by (intro E; destruct Ez as [Ez|(Ez & _)]; congruence).
      destruct (loop_ends (Z.to_nat (manhattan oc z)) d (env_of F32A o e b r m) oc (tm_of F32A o e b r) [oc] z Hd G P) as [res R]; try assumption.
      * apply cell_isize.
      * destruct Ez as [Ez|(_ & _ & Ez)]; [now left|right]. apply (too_far_iff d); auto. exact (proj1 P).
      * symmetry. apply Z2Nat.id, manhattan_nonneg.
      * exists (Z.to_nat (manhattan oc z)), res. rewrite cast_unfold. fold oc ec. rewrite Q. change (T F32A) with f32. rewrite LO. exact R.
Qed.

(** ** When a scan is taken in *)
Lemma integrate_iff : forall fuel of oo m g g1 o cloud, is_order of -> is_order oo -> storage_ok (gm_data g1) ->
  gm_expand_bounds g (pc_bounds cloud) f0 = Ret g1 ->
  let cast p := cast_ray F32A fuel o p (bmin (gm_bounds g1)) (gm_resolution g1) (max_range m) in
  let in_map := in_range (nd_shape (gm_data g1)) in
  ((exists g', integrate_point_cloud fuel of oo m g o cloud = Ret g') <->
   forall p, In p (pc_points cloud) -> exists rc oe, cast p = Ret (rc, oe) /\ Forall in_map rc /\ (forall c, oe = Some c -> in_map c)) /\
  ((forall p, In p (pc_points cloud) -> exists res, cast p = Ret res) ->
   ~ (forall p, In p (pc_points cloud) -> exists rc oe, cast p = Ret (rc, oe) /\ Forall in_map rc /\ (forall c, oe = Some c -> in_map c)) ->
   integrate_point_cloud fuel of oo m g o cloud = Panic).
Proof.
  intros fuel of oo m g g1 o cloud Hf Ho S1 E1 cast in_map. rewrite integrate_unfold. unfold default_cell_value. rewrite E1. cbn [obind].
  assert (PF : forall (T : cell -> Prop) ord s, is_order ord -> Forall T s -> Forall T (ord s)) by (intros T ord s HO HF; eapply Permutation_Forall; [apply Permutation_sym, HO|assumption]).
  assert (PB : forall (T : cell -> Prop) ord s, is_order ord -> Forall T (ord s) -> Forall T s) by (intros T ord s HO HF; eapply Permutation_Forall; [apply HO|assumption]).
  assert (DEC : forall l, Forall in_map l \/ ~ Forall in_map l).
  { intro l. assert (DC : forall c, {in_map c} + {~ in_map c}).
    { intro c. destruct (in_shape (nd_shape (gm_data g1)) c) eqn:Q; [left|right]; [now apply in_shape_iff|]. intro H. apply in_shape_iff in H. congruence. }
    destruct (Forall_dec in_map DC l); auto. }
  destruct (cast_rays fuel o cloud (gm_bounds g1) (gm_resolution g1) (max_range m)) as [[free occ]| |] eqn:Ec; cbn [obind fst snd].
  - destruct (cast_rays_isize _ _ _ _ _ _ _ _ Ec) as [If Io]. destruct (cast_rays_sets _ _ _ _ _ _ _ _ Ec) as (Sa & So & Sf & Nf & No).
    assert (K : (Forall in_map free /\ Forall in_map occ) <-> forall p, In p (pc_points cloud) -> exists rc oe, cast p = Ret (rc, oe) /\ Forall in_map rc /\ (forall c, oe = Some c -> in_map c)).
    { rewrite !Forall_forall. split.
      - intros [Rf Ro] p Hp. destruct (Sa p Hp) as ([rc oe] & Ep). exists rc, oe. split; [exact Ep|]. split.
        + apply Forall_forall. intros x Hx. destruct (in_dec (list_eq_dec Z.eq_dec) x occ) as [Y|Y]; [now apply Ro|]. apply Rf, Sf. split; [|exact Y]. exists p, rc, oe. auto.
        + intros c ->. apply Ro, So. exists p, rc. auto.
      - intros H. split; intros x Hx.
        + apply Sf in Hx. destruct Hx as [(p & rc & oe & Hp & E' & I) _]. destruct (H p Hp) as (rc' & oe' & E'' & Q1 & _). unfold cast in E''. rewrite E' in E''. injection E'' as <- <-. rewrite Forall_forall in Q1. now apply Q1.
        + apply So in Hx. destruct Hx as (p & rc & Hp & E'). destruct (H p Hp) as (rc' & oe' & E'' & _ & Q2). unfold cast in E''. rewrite E' in E''. injection E'' as <- <-. now apply Q2. }
    change (integrate_miss m) with (upd_cell (miss_value m)). change (integrate_hit m) with (upd_cell (hit_value m)).
    destruct (upd_cells_iff (miss_value m) (of free) g1 S1 (PF _ _ _ Hf If)) as [U1 U2].
    destruct (DEC free) as [Rf|Rf].
    + destruct (U1 (PF _ _ _ Hf Rf)) as [g2 E2]. rewrite E2. cbn [obind].
      destruct (upd_cells_spec _ _ _ _ S1 (PF _ _ _ Hf If) ltac:(eapply Permutation_NoDup; [apply Permutation_sym, Hf|assumption]) E2) as (S2 & (Sh & _) & _ & _).
      destruct (upd_cells_iff (hit_value m) (oo occ) g2 S2 (PF _ _ _ Ho Io)) as [V1 V2]. rewrite Sh in V1, V2.
      destruct (DEC occ) as [Ro|Ro].
      * destruct (V1 (PF _ _ _ Ho Ro)) as [g3 E3]. rewrite E3. cbn [obind]. split; [split; [intros _; now apply K|eauto]|]. intros _ H. exfalso. apply H. now apply K.
      * rewrite V2 by (intro H; apply Ro; now apply (PB _ oo)). cbn [obind]. split; [|reflexivity]. split; [intros [? H]; discriminate H|]. intro H. apply K in H. tauto.
    + rewrite U2 by (intro H; apply Rf; now apply (PB _ of)). cbn [obind]. split; [|reflexivity]. split; [intros [? H]; discriminate H|]. intro H. apply K in H. tauto.
  - assert (X : ~ forall p, In p (pc_points cloud) -> exists res, cast p = Ret res).
    { intro H. destruct (cast_rays_returns _ _ _ _ _ _ H) as [fo E]. rewrite E in Ec. discriminate Ec. }
    split; [|intro H; now apply X in H]. split; [intros [? H]; discriminate H|]. intro H. exfalso. apply X. intros p Hp. destruct (H p Hp) as (rc & oe & E & _). eauto.
  - assert (X : ~ forall p, In p (pc_points cloud) -> exists res, cast p = Ret res).
    { intro H. destruct (cast_rays_returns _ _ _ _ _ _ H) as [fo E]. rewrite E in Ec. discriminate Ec. }
    split; [|intro H; now apply X in H]. split; [intros [? H]; discriminate H|]. intro H. exfalso. apply X. intros p Hp. destruct (H p Hp) as (rc & oe & E & _). eauto.
Qed.
Lemma common_fuel : forall o b r m (l : list point), (forall p, In p l -> exists fuel res, cast_ray F32A fuel o p b r m = Ret res) ->
  exists fuel, forall p, In p l -> exists res, cast_ray F32A fuel o p b r m = Ret res.
Proof.
  intros o b r m. induction l as [|q l IH]; intro H; [exists 0%nat; intros p []|].
  destruct IH as [n1 H1]; [intros p Hp; apply H; now right|]. destruct (H q ltac:(now left)) as (n2 & res & H2). exists (Nat.max n1 n2). intros p [<-|Hp].
  - exists res. rewrite (cast_fuel n2); [exact H2|lia|]. rewrite H2. discriminate.
  - destruct (H1 p Hp) as [res' H3]. exists res'. rewrite (cast_fuel n1); [exact H3|lia|]. rewrite H3. discriminate.
Qed.
Lemma same_place : forall d (o e b : point) r (m : f32) x y, (d = 2 \/ d = 3)%nat -> length o = d -> length e = d -> length b = d ->
  let oc := cell_from_point F32A o b r in well_timed o e b r oc -> oc <> cell_from_point F32A e b r ->
  passes d o e b r oc x -> passes d o e b r oc y -> manhattan oc x = manhattan oc y -> x = y.
Proof.
  intros d o e b r m x y Hd Lo Le Lb oc W N Px Py M. pose proof (good_start d o e b r m Hd Lo Le Lb W N) as G. fold oc in G.
  rewrite (passes_ahead d o e b r m) in Px, Py by assumption. fold oc in Px, Py. pose proof (manhattan_nonneg oc x) as Nx.
  rewrite <- (walk_arrives d _ _ Hd (Z.to_nat (manhattan oc x)) _ x G Px) by (cbn [fst]; lia).
  apply (walk_arrives d); try assumption. cbn [fst]. lia.
Qed.
Lemma scan_taken : forall d r t of oo m g g1 o cloud, map_range d r t -> reachable d r t g ->
  is_order of -> is_order oo -> matrix_ok cloud -> nrows cloud = d -> length o = d -> request_ok d r (pc_bounds cloud) ->
  gm_expand_bounds g (pc_bounds cloud) f0 = Ret g1 ->
  let b := bmin (gm_bounds g1) in let oc := cell_from_point F32A o b r in let in_map := in_range (nd_shape (gm_data g1)) in
  (forall p, In p (pc_points cloud) -> timely o p b r oc (cell_from_point F32A p b r)) ->
  ((exists fuel g', integrate_point_cloud fuel of oo m g o cloud = Ret g') <->
   forall p, In p (pc_points cloud) -> let ec := cell_from_point F32A p b r in
     exists z, passes d o p b r oc z /\ cells_in_isize z /\ ends_ray o b r (max_range m) oc ec z /\ (z = ec -> in_map ec) /\
       forall x, passes d o p b r oc x -> manhattan oc x < manhattan oc z -> in_map x).
Proof.
  intros d r t of oo m g g1 o cloud M H Hf Ho MO ND LO RQ E1 b oc in_map TI.
  pose proof (reach_expand _ _ _ _ _ _ _ H RQ E1) as H1. destruct (wf_of_reachable d r t g1 M H1) as [cb1 W1].
  pose proof (wf_covers _ _ _ _ _ M W1) as C1. pose proof (cc_resolution _ _ _ _ _ C1) as ER. pose proof (cc_storage _ _ _ _ _ C1) as S1.
  assert (LB : length b = d). { pose proof (Forall2_length _ _ _ (cc_min _ _ _ _ _ C1)) as L. destruct (cc_ordered _ _ _ _ _ C1) as (L1 & _). unfold b, cell, point in *. congruence. }
  assert (Hd : (d = 2 \/ d = 3)%nat) by apply M.
  assert (LP : forall p, In p (pc_points cloud) -> length p = d) by (intros p Hp; rewrite <- ND; now apply mcol_point_length).
  split.
  - intros (fuel & g' & E) p Hp ec. destruct (integrate_iff fuel of oo m g g1 o cloud Hf Ho S1 E1) as [[I _] _].
    destruct (I (ex_intro _ g' E) p Hp) as (rc & oe & Ec & Rc & Ro). rewrite ER in Ec. fold b in Ec.
    destruct (ray_result fuel d o p b r (max_range m) rc oe Hd LO (LP p Hp) LB (TI p Hp) Ec) as (z & P & Iz & Ez & Z1 & Z2 & C & _). fold oc in P, Ez, C. fold ec in Ez, Z1, Z2.
    exists z. split; [exact P|]. split; [exact Iz|]. split; [exact Ez|]. split.
    + intro E0. apply Ro. now apply Z1.
    + intros x Px D. rewrite Forall_forall in Rc. apply Rc, C. auto.
  - intro K. destruct (common_fuel o b r (max_range m) (pc_points cloud)) as [fuel F].
    { intros p Hp. apply (ray_returns_iff d); auto. destruct (K p Hp) as (z & P & Iz & Ez & _). exists z. auto. }
    exists fuel. destruct (integrate_iff fuel of oo m g g1 o cloud Hf Ho S1 E1) as [[_ I] _]. apply I. intros p Hp. rewrite ER. fold b.
    destruct (F p Hp) as [[rc oe] Ec]. exists rc, oe. split; [exact Ec|].
    destruct (ray_result fuel d o p b r (max_range m) rc oe Hd LO (LP p Hp) LB (TI p Hp) Ec) as (z & P & Iz & Ez & Z1 & Z2 & C & NE). fold oc in P, Ez, C, NE. set (ec := cell_from_point F32A p b r) in *.
    destruct (K p Hp) as (y & Py & Iy & Ey & Y1 & Y2). fold ec in Ey, Y1.
    assert (D : manhattan oc z <= manhattan oc y).
    { destruct (Z_lt_le_dec (manhattan oc y) (manhattan oc z)) as [L|L]; [|exact L]. exfalso. apply (NE y); [|exact Ey]. apply C. auto. }
    split; [apply Forall_forall; intros x Hx; apply C in Hx; apply Y2; [apply Hx|lia]|].
    intros c ->. assert (Zc : z = ec). { destruct (list_eq_dec Z.eq_dec z ec) as [E|E]; [exact E|]. specialize (Z2 E). discriminate Z2. }
    assert (c = ec) by (specialize (Z1 Zc); congruence). subst c.
    destruct (list_eq_dec Z.eq_dec oc ec) as [Q|Q].
    + destruct (Z_lt_le_dec (manhattan oc z) (manhattan oc y)) as [L|L]; [rewrite <- Zc; now apply Y2|].
      apply Y1. rewrite Zc, Q, manhattan_refl in L. pose proof (manhattan_nonneg ec y). symmetry. apply manhattan_zero; [|lia]. transitivity d; [|symmetry; apply (proj1 Py)]. rewrite <- Q. unfold oc, cell_from_point. now apply map2_len.
    + destruct (TI p Hp Q) as [W _]. destruct (Z_lt_le_dec (manhattan oc z) (manhattan oc y)) as [L|L]; [rewrite <- Zc; now apply Y2|].
      apply Y1. symmetry. rewrite <- Zc. apply (same_place d o p b r (max_range m)); auto; exact (Z.le_antisymm _ _ D L).
Qed.
Lemma range_timely : forall d (o e b : point) r, (d = 2 \/ d = 3)%nat -> length o = d -> length e = d -> length b = d -> ray_range r o e b ->
  timely o e b r (cell_from_point F32A o b r) (cell_from_point F32A e b r).
Proof. intros d o e b r Hd Lo Le Lb HR N. split; [now apply (range_timed d)|now apply (range_moves d)]. Qed.
Lemma stop_unique : forall d (o e b : point) r m y z, (d = 2 \/ d = 3)%nat -> length o = d -> length e = d -> length b = d ->
  let oc := cell_from_point F32A o b r in let ec := cell_from_point F32A e b r in timely o e b r oc ec ->
  stops_at d o e b r m oc ec y -> stops_at d o e b r m oc ec z -> y = z.
Proof.
  intros d o e b r m y z Hd Lo Le Lb oc ec TI (Py & _ & Ey & Fy) (Pz & _ & Ez & Fz).
  assert (D : manhattan oc y = manhattan oc z).
  { destruct (Z.lt_trichotomy (manhattan oc y) (manhattan oc z)) as [L|[L|L]]; [|exact L|]; exfalso; [exact (Fz y Py L Ey)|exact (Fy z Pz L Ez)]. }
  destruct (list_eq_dec Z.eq_dec oc ec) as [Q|Q].
  - assert (Lc : length oc = d) by (unfold oc, cell_from_point; now apply map2_len).
    assert (K : forall x, passes d o e b r oc x -> (forall u, passes d o e b r oc u -> manhattan oc u < manhattan oc x -> ~ ends_ray o b r m oc ec u) -> oc = x).
    { intros x Px F. pose proof (manhattan_nonneg oc x). apply manhattan_zero; [rewrite Lc; symmetry; apply Px|].
      destruct (Z_lt_le_dec 0 (manhattan oc x)) as [P|P]; [|lia]. exfalso. apply (F oc); [now apply passes_start|now rewrite manhattan_refl|now left]. }
    rewrite <- (K y Py Fy), <- (K z Pz Fz). reflexivity.
  - destruct (TI Q) as [W _]. apply (same_place d o e b r m); auto.
Qed.
Lemma ray_stops : forall fuel d (o e b : point) r m rc oe, (d = 2 \/ d = 3)%nat -> length o = d -> length e = d -> length b = d ->
  let oc := cell_from_point F32A o b r in let ec := cell_from_point F32A e b r in timely o e b r oc ec ->
  cast_ray F32A fuel o e b r m = Ret (rc, oe) ->
  (forall c, oe = Some c <-> c = ec /\ stops_at d o e b r m oc ec c) /\ (forall x, In x rc <-> crosses d o e b r m oc ec x).
Proof.
  intros fuel d o e b r m rc oe Hd Lo Le Lb oc ec TI R.
  destruct (ray_result fuel d o e b r m rc oe Hd Lo Le Lb TI R) as (z & P & Iz & Ez & Z1 & Z2 & C & NE). fold oc ec in P, Ez, Z1, Z2, C, NE.
  assert (SZ : stops_at d o e b r m oc ec z).
  { split; [exact P|]. split; [exact Iz|]. split; [exact Ez|]. intros x Px L. apply NE, C. auto. }
  split.
  - intro c. split.
    + intros ->. destruct (list_eq_dec Z.eq_dec z ec) as [E|E]; [|specialize (Z2 E); discriminate Z2]. specialize (Z1 E). injection Z1 as ->. split; [reflexivity|]. now rewrite <- E at 2.
    + intros [-> S]. apply Z1. exact (stop_unique d o e b r m z ec Hd Lo Le Lb TI SZ S).
  - intro x. rewrite C. split.
    + intros [Px L]. exists z. auto.
    + intros (y & SY & Px & L). rewrite (stop_unique d o e b r m z y Hd Lo Le Lb TI SZ SY). auto.
Qed.
Lemma scan_cells : forall fuel d o cloud bs r m free occ, (d = 2 \/ d = 3)%nat -> matrix_ok cloud -> nrows cloud = d -> length o = d -> length (bmin bs) = d ->
  let b := bmin bs in let oc := cell_from_point F32A o b r in let ec p := cell_from_point F32A p b r in
  (forall p, In p (pc_points cloud) -> timely o p b r oc (ec p)) ->
  cast_rays fuel o cloud bs r m = Ret (free, occ) ->
  (forall c, In c occ <-> exists p, In p (pc_points cloud) /\ c = ec p /\ stops_at d o p b r m oc (ec p) c) /\
  (forall c, In c free <-> (exists p, In p (pc_points cloud) /\ crosses d o p b r m oc (ec p) c) /\ ~ In c occ).
Proof.
  intros fuel d o cloud bs r m free occ Hd MO ND Lo Lb b oc ec TI R.
  assert (LP : forall p, In p (pc_points cloud) -> length p = d) by (intros p Hp; rewrite <- ND; now apply mcol_point_length).
  destruct (cast_rays_sets _ _ _ _ _ _ _ _ R) as (RT & O & Fr & _). fold b in RT, O, Fr.
  split; intro c.
  - rewrite O. split.
    + intros (p & rc & Hp & E). exists p. split; [exact Hp|]. apply (ray_stops fuel d o p b r m rc (Some c) Hd Lo (LP p Hp) Lb (TI p Hp) E). reflexivity.
    + intros (p & Hp & H). destruct (RT p Hp) as [[rc oe] E]. exists p, rc. split; [exact Hp|]. rewrite E. repeat f_equal.
      apply (ray_stops fuel d o p b r m rc oe Hd Lo (LP p Hp) Lb (TI p Hp) E). exact H.
  - rewrite Fr. split; intros [H N]; (split; [|exact N]).
    + destruct H as (p & rc & oe & Hp & E & I). exists p. split; [exact Hp|]. apply (ray_stops fuel d o p b r m rc oe Hd Lo (LP p Hp) Lb (TI p Hp) E). exact I.
    + destruct H as (p & Hp & H). destruct (RT p Hp) as [[rc oe] E]. exists p, rc, oe. split; [exact Hp|]. split; [exact E|].
      apply (ray_stops fuel d o p b r m rc oe Hd Lo (LP p Hp) Lb (TI p Hp) E). exact H.
Qed.
(** All a scan does, place by place. *)
Lemma scan_writes : forall d r t fuel of oo m g o cloud g', map_range d r t -> reachable d r t g -> matrix_ok cloud -> nrows cloud = d -> length o = d ->
  request_ok d r (pc_bounds cloud) -> is_order of -> is_order oo ->
  integrate_point_cloud fuel of oo m g o cloud = Ret g' ->
  let b := bmin (gm_bounds g') in let oc := cell_from_point F32A o b r in let ec p := cell_from_point F32A p b r in
  (forall p, In p (pc_points cloud) -> timely o p b r oc (ec p)) ->
  let hit c := exists p, In p (pc_points cloud) /\ c = ec p /\ stops_at d o p b r (max_range m) oc (ec p) c in
  let crossed c := exists p, In p (pc_points cloud) /\ crosses d o p b r (max_range m) oc (ec p) c in
  exists cb cb' reported, covers_cells d r t g cb /\ covers_cells d r t g' cb' /\
    (forall w, in_box cb w -> in_box cb' w) /\
    (forall c, hit c \/ crossed c -> in_range (nd_shape (gm_data g')) c) /\
    (forall w, in_box cb' w -> let c := map2 Z.sub w (cmin cb') in
      exists old, ((in_box cb w -> gm_get g (map2 Z.sub w (cmin cb)) = Ret old) /\ (~ in_box cb w -> old = f0)) /\
        (hit c -> gm_get g' c = Ret (fmin (fadd old (hit_logodds m)) (max_logodds m))) /\
        (~ hit c -> crossed c -> gm_get g' c = Ret (fmax (fadd old (miss_logodds m)) (min_logodds m))) /\
        (~ hit c -> ~ crossed c -> gm_get g' c = Ret old)) /\
    gm_changed_cells g' = gm_changed_cells g ++ reported /\ NoDup reported /\
    (gm_track_changes g = true -> forall c, In c reported <-> hit c \/ crossed c) /\ (gm_track_changes g = false -> reported = []).
Proof.
  intros d r t fuel of oo m g o cloud g' M H MO ND LO RQ Hf Ho E b oc ec TI hit crossed.
  destruct (integrate_places d r t fuel of oo m g o cloud g' M H RQ Hf Ho E) as (cb & cb' & free & occ & C & C' & R & IR & IB & V).
  assert (LB : length b = d). { pose proof (Forall2_length _ _ _ (cc_min _ _ _ _ _ C')) as L. destruct (cc_ordered _ _ _ _ _ C') as (L1 & _). unfold b, cell, point in *. congruence. }
  assert (Hd : (d = 2 \/ d = 3)%nat) by apply M.
  destruct (scan_cells fuel d o cloud (gm_bounds g') r (max_range m) free occ Hd MO ND LO LB TI R) as [SO SF]. fold b oc in SO, SF.
  change (forall c, In c occ <-> hit c) in SO. change (forall c, In c free <-> crossed c /\ ~ In c occ) in SF.
  assert (U : forall c, In c free \/ In c occ <-> hit c \/ crossed c).
  { intro c. pose proof (SO c). pose proof (SF c). destruct (in_dec (list_eq_dec Z.eq_dec) c occ); tauto. }
  pose proof (cc_storage _ _ _ _ _ C) as ST.
  destruct (integrate_tracks fuel of oo m g o cloud g' Hf Ho ST E) as (g1 & free' & occ' & l & E1 & R' & _ & CC & NT & TR).
  destruct (integrate_spec fuel of oo m g o cloud g' Hf Ho ST E) as (g1' & free2 & occ2 & E1' & _ & _ & _ & _ & EB & ERr & _).
  assert (g1' = g1) by congruence. subst g1'.
  assert (RE : gm_resolution g1 = r). { pose proof (reach_expand _ _ _ _ _ _ _ H RQ E1) as H1. destruct (wf_of_reachable d r t g1 M H1) as [cb1 W1]. apply (cc_resolution _ _ _ _ _ (wf_covers _ _ _ _ _ M W1)). }
  rewrite RE, <- EB in R'. assert (free' = free /\ occ' = occ) as [-> ->] by (split; congruence).
  exists cb, cb', l. split; [exact C|]. split; [exact C'|]. split; [exact IB|]. split; [intros c Hc; apply IR, U, Hc|]. split; [|split; [exact CC|split; [|split]]].
  - intros w Hw c. destruct (V w Hw) as (old & OLD & V1 & V2 & V3). exists old. fold c in V1, V2, V3. split; [exact OLD|]. rewrite SO in V1. split; [exact V1|].
    split; intros N1 N2; [apply V2, SF; rewrite SO; auto|]. apply V3; [now rewrite SO|rewrite SF; tauto].
  - destruct (gm_track_changes g); [apply TR; reflexivity|]. rewrite NT by reflexivity. constructor.
  - intros T c. rewrite <- U. now apply TR.
  - exact NT.
Qed.
