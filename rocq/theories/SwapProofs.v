(** Exchanging the first two axes. *)
From Coq Require Import ZArith List Bool Reals Lia Lra Permutation SpecFloat.
From Flocq Require Import Core BinarySingleNaN.
From Verif Require Import Base F32 FloatFacts Arith Geom NdArray GridMap RayCaster NoiseModel Spec SpecMap SpecNoise SpecRay SpecScale SpecSwap NdProofs RayProofs CastProofs RaysProofs MergeProofs MirrorProofs.
Open Scope Z_scope.

(** ** Lists *)
Lemma swapped_twice : forall {A} (l : list A), swapped (swapped l) = l.
Proof. intros A [|a [|b l]]; reflexivity. Qed.
Lemma swapped_length : forall {A} (l : list A), length (swapped l) = length l.
Proof. intros A [|a [|b l]]; reflexivity. Qed.
Lemma swapped_map_list : forall {A B} (f : A -> B) l, map f (swapped l) = swapped (map f l).
Proof. intros A B f [|a [|b l]]; reflexivity. Qed.
Lemma swapped_map2 : forall {A B C} (f : A -> B -> C) l m, length l = length m -> map2 f (swapped l) (swapped m) = swapped (map2 f l m).
Proof. intros A B C f [|a [|b l]] [|c [|e m]] L; try discriminate L; reflexivity. Qed.
Lemma swapped_inj : forall {A} (a b : list A), swapped a = swapped b -> a = b.
Proof. intros A a b E. rewrite <- (swapped_twice a), E. apply swapped_twice. Qed.
Lemma swapped_Forall : forall {A} (P : A -> Prop) l, Forall P l -> Forall P (swapped l).
Proof. intros A P [|a [|b l]] H; cbn [swapped]; try exact H. inversion H as [|? ? ? H1]; subst. inversion H1; subst. repeat constructor; assumption. Qed.
Lemma swapped_Forall2 : forall {A B} (P : A -> B -> Prop) l m, Forall2 P l m -> Forall2 P (swapped l) (swapped m).
Proof. intros A B P l m [|a c l' m' H1 H2]; [constructor|]. destruct H2; cbn [swapped]; repeat constructor; assumption. Qed.
Lemma swapped_eqb : forall a b, cell_eqb (swapped a) (swapped b) = cell_eqb a b.
Proof.
  intros a b. destruct (cell_eqb a b) eqn:E.
  - apply cell_eqb_eq in E. subst. now apply cell_eqb_eq.
  - apply cell_eqb_neq in E. apply cell_eqb_neq. intro K. apply E. now apply swapped_inj.
Qed.
Definition other (k : nat) : nat := match k with 0%nat => 1%nat | 1%nat => 0%nat | _ => k end.
Lemma swapped_nth : forall {A} (l : list A) k x, (2 <= length l)%nat -> nth (other k) (swapped l) x = nth k l x.
Proof. intros A [|a [|b l]] k x L; cbn [length] in L; try lia. destruct k as [|[|k]]; reflexivity. Qed.
Lemma swapped_upd : forall {A} (l : list A) k x, (2 <= length l)%nat -> upd (swapped l) (other k) x = swapped (upd l k x).
Proof. intros A [|a [|b l]] k x L; cbn [length] in L; try lia. destruct k as [|[|k]]; reflexivity. Qed.

Lemma upd_len : forall {A} (l : list A) k x, length (upd l k x) = length l.
Proof. intros A l. induction l as [|a l IH]; intros [|k] x; cbn [upd length]; auto. Qed.

(** ** Sums *)
Lemma add_comm : forall x y : f32, fadd x y = fadd y x.
Proof.
  intros [sx|sx| |sx mx ex Hx] [sy|sy| |sy my ey Hy]; try reflexivity; try (destruct sx, sy; reflexivity).
  unfold fadd. cbn [Bplus]. rewrite (Z.min_comm ex ey). f_equal. apply Z.add_comm.
Qed.
Lemma norm2_swapped : forall v : point, norm_squared F32A (swapped v) = norm_squared F32A v.
Proof.
  intros [|a [|b l]]; try reflexivity. unfold norm_squared, dot_self. cbn [swapped map fold_left tadd tmul F32A]. now rewrite (add_comm (fmul b b)).
Qed.

(** ** The loop *)
Definition apart (n : nat) (d3 : bool) (tm td : list f32) : Prop := forall i j, (i + j < n)%nat ->
  let x := crossing (nth 0 tm finf) (nth 0 td finf) i in let y := crossing (nth 1 tm finf) (nth 1 td finf) j in
  fltb x y = true \/ fltb y x = true \/ (d3 = true /\ x = finf /\ y = finf).
Lemma flt_asym : forall x y, fltb x y = true -> fltb y x = false.
Proof. intros x y H. destruct (fltb y x) eqn:K; [|reflexivity]. apply fltb_iff in H. apply fltb_iff in K. lra. Qed.
Lemma inf_not_below : forall x, fltb finf x = false.
Proof. intros [s|[|]| |s m e H]; reflexivity. Qed.
Lemma select_swapped : forall n (tm td : list f32), (length tm = 2 \/ length tm = 3)%nat -> (0 < n)%nat -> apart n (Nat.eqb (length tm) 3) tm td ->
  select_dim F32A (swapped tm) = other (select_dim F32A tm).
Proof.
  intros n tm td L Hn H. specialize (H 0%nat 0%nat ltac:(lia)). cbv zeta in H. cbn [crossing] in H.
  destruct L as [L|L].
  - destruct tm as [|a [|b [|c l]]]; try discriminate L. unfold select_dim. cbn [swapped length nth Nat.eqb tltb tinf F32A] in *.
    destruct H as [H|[H|[H _]]]; [| |discriminate H]; rewrite H, (flt_asym _ _ H); reflexivity.
  - destruct tm as [|a [|b [|c [|e l]]]]; try discriminate L. unfold select_dim. cbn [swapped length nth Nat.eqb tltb tinf F32A] in *.
    destruct H as [H|[H|(_ & H1 & H2)]].
    + rewrite H, (flt_asym _ _ H). destruct (fltb a c); reflexivity.
    + rewrite H, (flt_asym _ _ H). destruct (fltb b c); reflexivity.
    + subst a b. rewrite !inf_not_below. reflexivity.
Qed.
Lemma apart_next : forall n d3 (tm td : list f32) k, (2 <= length tm)%nat -> apart (S n) d3 tm td -> apart n d3 (upd tm k (fadd (nth k tm finf) (nth k td finf))) td.
Proof.
  intros n d3 [|a [|b tm]] td k L H i j Hij; cbn [length] in L; try lia. cbv zeta. destruct k as [|[|k]]; cbn [upd nth].
  - rewrite crossing_shift. apply (H (S i) j). lia.
  - rewrite crossing_shift. apply (H i (S j)). lia.
  - apply (H i j). lia.
Qed.
Lemma loop_swapped : forall fuel d (o b : point) r m ec st td cur tm acc, (d = 2 \/ d = 3)%nat -> length o = d -> length b = d -> length st = d -> length td = d -> length cur = d -> length tm = d ->
  apart fuel (Nat.eqb d 3) tm td ->
  ray_loop F32A fuel (mkEnv F32A (swapped o) (swapped b) r m (swapped ec) (swapped st) (swapped td)) (swapped cur) (swapped tm) (map swapped acc) =
  obind (ray_loop F32A fuel (mkEnv F32A o b r m ec st td) cur tm acc) (fun x => Ret (swapped_ray x)).
Proof.
  induction fuel as [|fuel IH]; intros d o b r m ec st td cur tm acc Hd Lo Lb Ls Lt Lc Lm H; [reflexivity|].
  cbn [ray_loop re_step re_end_cell re_t_delta]. change (T F32A) with f32.
  rewrite (select_swapped (S fuel) tm td) by (try lia; now rewrite ?Lm). set (k := select_dim F32A tm).
  rewrite !swapped_nth by (unfold cell, point in *; change (T F32A) with f32 in *; lia).
  destruct (isz _) as [x| |]; [|reflexivity|reflexivity]. cbn [obind].
  rewrite !swapped_upd by (unfold cell, point in *; change (T F32A) with f32 in *; lia). set (cur1 := upd cur k x).
  assert (L1 : length cur1 = d) by (unfold cur1; now rewrite upd_length).
  rewrite swapped_eqb. destruct (cell_eqb cur1 ec); [reflexivity|].
  assert (TF : too_far F32A (mkEnv F32A (swapped o) (swapped b) r m (swapped ec) (swapped st) (swapped td)) (swapped cur1) = too_far F32A (mkEnv F32A o b r m ec st td) cur1).
  { unfold too_far. cbn [re_max_len re_bmin re_resolution re_origin]. unfold point_from_cell, vsub.
    rewrite (swapped_map2 _ cur1 b) by exact (eq_trans L1 (eq_sym Lb)). rewrite (swapped_map2 _ _ o) by (rewrite (map2_len _ d); [exact (eq_sym Lo)|exact L1|exact Lb]).
    rewrite norm2_swapped. reflexivity. }
  match goal with |- context [if too_far F32A ?E1 (swapped cur1) then _ else _] => replace (too_far F32A E1 (swapped cur1)) with (too_far F32A (mkEnv F32A o b r m ec st td) cur1) by (symmetry; exact TF) end.
  destruct (too_far _ _ cur1); [reflexivity|].
  change [swapped cur1] with (map (@swapped Z) [cur1]). rewrite <- map_app. apply (IH d); try assumption.
  - now rewrite upd_len.
  - apply apart_next; [lia|]. exact H.
Qed.

Lemma ray_swapped : forall fuel d (o e b : point) r m, (d = 2 \/ d = 3)%nat -> length o = d -> length e = d -> length b = d ->
  (cell_from_point F32A o b r <> cell_from_point F32A e b r -> untied fuel o e b r) ->
  cast_ray F32A fuel (swapped o) (swapped e) (swapped b) r m = obind (cast_ray F32A fuel o e b r m) (fun x => Ret (swapped_ray x)).
Proof.
  intros fuel d o e b r m Hd Lo Le Lb U. unfold cast_ray. change (T F32A) with f32. rewrite swapped_length.
  destruct (_ || _); [|reflexivity]. cbn [oassert obind]. unfold cell_from_point. rewrite (swapped_map2 _ o b) by exact (eq_trans Lo (eq_sym Lb)). rewrite (swapped_map2 _ e b) by exact (eq_trans Le (eq_sym Lb)).
  change (map2 (fun coord offset_coord : T F32A => cell_coord_from_point_coord F32A coord offset_coord r) o b) with (cell_from_point F32A o b r).
  change (map2 (fun coord offset_coord : T F32A => cell_coord_from_point_coord F32A coord offset_coord r) e b) with (cell_from_point F32A e b r).
  rewrite swapped_eqb. destruct (cell_eqb _ _) eqn:Q; [reflexivity|]. apply cell_eqb_neq in Q. specialize (U Q).
  assert (V : vsub F32A (swapped e) (swapped o) = swapped (vsub F32A e o)) by (apply swapped_map2; exact (eq_trans Le (eq_sym Lo))).
  assert (N : norm F32A (swapped (vsub F32A e o)) = norm F32A (vsub F32A e o)) by (unfold norm; now rewrite norm2_swapped).
  rewrite V, N. set (oc := cell_from_point F32A o b r) in *. set (ec := cell_from_point F32A e b r) in *.
  assert (Lc : length oc = d) by (unfold oc, cell_from_point; now apply map2_len).
  assert (Lv : length (vsub F32A e o) = d) by (unfold vsub; now apply map2_len).
  pose proof (times_env d o e b r Hd Lo Le Lb) as TE. pose proof (deltas_env d o e b r m Hd Lo Le) as DE. unfold tm_of, env_of in TE, DE. cbn [re_t_delta] in DE. fold oc in TE.
  unfold untied in U. cbv zeta in U. fold oc in U. rewrite <- TE, <- DE in U. clear TE DE.
  set (p := vdivs F32A (vsub F32A e o) (norm F32A (vsub F32A e o))) in *.
  assert (Lp : length p = d) by (unfold p, vdivs; now rewrite map_length).
  assert (P : vdivs F32A (swapped (vsub F32A e o)) (norm F32A (vsub F32A e o)) = swapped p) by (unfold p, vdivs; apply swapped_map_list).
  rewrite P. assert (S : signum F32A (swapped p) = swapped (signum F32A p)) by (unfold signum; apply swapped_map_list). rewrite S.
  assert (Ls : length (signum F32A p) = d) by (unfold signum; now rewrite map_length).
  assert (D : init_t_delta F32A (swapped (signum F32A p)) (swapped p) r = swapped (init_t_delta F32A (signum F32A p) p r)) by (unfold init_t_delta; apply swapped_map2; change (T F32A) with f32 in *; congruence).
  rewrite D. assert (M : init_t_max F32A (swapped (signum F32A p)) (swapped b) (swapped o) (swapped p) r (swapped oc) = swapped (init_t_max F32A (signum F32A p) b o p r oc)).
  { clear - Hd Lb Lo Lp Lc. revert Lp Lc. generalize p oc. intros q c Lq Lc.
    destruct Hd as [-> | ->].
    - destruct b as [|? [|? [|]]]; try discriminate Lb. destruct o as [|? [|? [|]]]; try discriminate Lo.
      destruct q as [|? [|? [|]]]; try discriminate Lq. destruct c as [|? [|? [|]]]; try discriminate Lc. reflexivity.
    - destruct b as [|? [|? [|? [|]]]]; try discriminate Lb. destruct o as [|? [|? [|? [|]]]]; try discriminate Lo.
      destruct q as [|? [|? [|? [|]]]]; try discriminate Lq. destruct c as [|? [|? [|? [|]]]]; try discriminate Lc. reflexivity. }
  rewrite M. change [swapped oc] with (map (@swapped Z) [oc]). apply (loop_swapped fuel d); try assumption.
  - unfold init_t_delta. now apply map2_len.
  - exact (length_init_t_max F32A d (signum F32A p) b o p r oc Ls Lb Lo Lp Lc).
  - intros i j Hij. destruct (U i j Hij) as [X|[X|(X & Y)]]; [now left|right; now left|right; right]. split; [|exact Y]. rewrite <- Lo, X. reflexivity.
Qed.

(** ** Scans *)
Lemma insert_swapped : forall s c, set_insert (map swapped s) (swapped c) = map swapped (set_insert s c).
Proof.
  intros s c. unfold set_insert, set_mem. replace (existsb (cell_eqb (swapped c)) (map swapped s)) with (existsb (cell_eqb c) s).
  - destruct (existsb (cell_eqb c) s); [reflexivity|]. now rewrite map_app.
  - induction s as [|x s IH]; [reflexivity|]. cbn [existsb map]. now rewrite swapped_eqb, IH.
Qed.
Lemma inserts_swapped : forall l s, fold_left set_insert (map swapped l) (map swapped s) = map swapped (fold_left set_insert l s).
Proof. induction l as [|c l IH]; intro s; [reflexivity|]. cbn [map fold_left]. rewrite insert_swapped. apply IH. Qed.
Lemma removes_swapped : forall l s, fold_left set_remove (map swapped l) (map swapped s) = map swapped (fold_left set_remove l s).
Proof.
  induction l as [|c l IH]; intro s; [reflexivity|]. cbn [map fold_left]. rewrite <- IH. f_equal. unfold set_remove.
  induction s as [|x s IHs]; [reflexivity|]. cbn [map filter]. rewrite swapped_eqb. destruct (cell_eqb c x); cbn [negb map]; [exact IHs|now rewrite IHs].
Qed.
Lemma scan_swapped : forall fuel d (o : point) cloud cloud' bs bs' r m, (d = 2 \/ d = 3)%nat -> length o = d -> length (bmin bs) = d ->
  (forall p, In p (pc_points cloud) -> length p = d /\ (cell_from_point F32A o (bmin bs) r <> cell_from_point F32A p (bmin bs) r -> untied fuel o p (bmin bs) r)) ->
  pc_points cloud' = map swapped (pc_points cloud) -> bmin bs' = swapped (bmin bs) ->
  cast_rays fuel (swapped o) cloud' bs' r m =
  obind (cast_rays fuel o cloud bs r m) (fun fo => Ret (map swapped (fst fo), map swapped (snd fo))).
Proof.
  intros fuel d o cloud cloud' bs bs' r m Hd Lo Lb HP EC EB. unfold cast_rays. rewrite EC, EB. clear EC EB.
  assert (G : forall ps fo, (forall p, In p ps -> In p (pc_points cloud)) ->
    ofold (fun (acc : cset * cset) p => obind (cast_ray F32A fuel (swapped o) p (swapped (bmin bs)) r m) (fun r0 => Ret (fold_left set_insert (fst r0) (fst acc), match snd r0 with Some end_cell => set_insert (snd acc) end_cell | None => snd acc end)))
      (map swapped (fst fo), map swapped (snd fo)) (map swapped ps) =
    obind (ofold (fun (acc : cset * cset) p => obind (cast_ray F32A fuel o p (bmin bs) r m) (fun r0 => Ret (fold_left set_insert (fst r0) (fst acc), match snd r0 with Some end_cell => set_insert (snd acc) end_cell | None => snd acc end))) fo ps)
      (fun fo => Ret (map swapped (fst fo), map swapped (snd fo)))).
  { induction ps as [|p ps IH]; intros fo HI; [reflexivity|]. cbn [map ofold].
    destruct (HP p (HI p (or_introl eq_refl))) as [Lp U]. rewrite (ray_swapped fuel d o p (bmin bs) r m Hd Lo Lp Lb U).
    destruct (cast_ray F32A fuel o p (bmin bs) r m) as [[rc oe]| |]; [|reflexivity|reflexivity]. cbn [obind fst snd swapped_ray].
    rewrite inserts_swapped.
    destruct oe as [c|]; cbn [option_map].
    - rewrite insert_swapped. apply (IH (fold_left set_insert rc (fst fo), set_insert (snd fo) c)). intros q Hq. apply HI. now right.
    - apply (IH (fold_left set_insert rc (fst fo), snd fo)). intros q Hq. apply HI. now right. }
  specialize (G (pc_points cloud) ([], []) (fun p H => H)). cbn [map fst snd] in G. etransitivity; [apply f_equal2; [exact G|reflexivity]|]. clear G.
  match goal with |- obind (obind ?Y _) _ = obind (obind ?Y' _) _ => change Y' with Y; destruct Y as [[free occ]| |]; [|reflexivity|reflexivity] end.
  cbn [obind fst snd]. now rewrite removes_swapped.
Qed.
