(** cast_ray: what it returns, for all f32 inputs. *)
From Coq Require Import ZArith List Bool Reals Lia Lra.
From Flocq Require Import Core BinarySingleNaN.
From Verif Require Import Base F32 FloatFacts Arith Geom RayCaster Spec MathProofs RayProofs.
Open Scope Z_scope.

Section Init.
Context (A : arith).
Hypothesis inf_add : tadd A (tinf A) (tinf A) = tinf A.
Hypothesis sig : forall v, let s := signum1 A v in
  t_to_isize A s = 1 \/ t_to_isize A s = -1 \/ (t_to_isize A s = 0 /\ teqb A s (tzero A) = true).

Lemma nth_init_t_max : forall d step b o dir r c i,
  length step = d -> length b = d -> length o = d -> length dir = d -> length c = d -> (i < d)%nat ->
  nth i (init_t_max A step b o dir r c) (tinf A) =
  axis_t_max A (nth i step (tzero A)) (nth i b (tzero A)) (nth i o (tzero A)) (nth i dir (tzero A)) r (nth i c 0).
Proof.
  induction d as [|d IH]; intros step b o dir r c i L1 L2 L3 L4 L5 Hi; [lia|].
  destruct step, b, o, dir, c; try discriminate. cbn in *. destruct i; [reflexivity|].
  apply IH; lia.
Qed.
Lemma length_init_t_max : forall d step b o dir r c,
  length step = d -> length b = d -> length o = d -> length dir = d -> length c = d ->
  length (init_t_max A step b o dir r c) = d.
Proof.
  induction d as [|d IH]; intros step b o dir r c L1 L2 L3 L4 L5; 
  destruct step, b, o, dir, c; try discriminate; cbn in *; [reflexivity|]. f_equal. apply IH; lia.
Qed.
Lemma nth_init_t_delta : forall d step dir r i, length step = d -> length dir = d -> (i < d)%nat ->
  nth i (init_t_delta A step dir r) (tinf A) = axis_t_delta A (nth i step (tzero A)) (nth i dir (tzero A)) r.
Proof.
  unfold init_t_delta. induction d as [|d IH]; intros step dir r i L1 L2 Hi; [lia|].
  destruct step, dir; try discriminate. cbn in *. destruct i; [reflexivity|]. apply IH; lia.
Qed.
Lemma map2_len : forall {X Y Z} (f : X -> Y -> Z) d l m, length l = d -> length m = d -> length (map2 f l m) = d.
Proof. intros X Y Z f. induction d; intros [|] [|] L M; try discriminate; cbn in *; auto. Qed.

Lemma nth_signum : forall (v : list (T A)) i, (i < length v)%nat ->
  nth i (signum A v) (tzero A) = signum1 A (nth i v (tzero A)).
Proof.
  intros v i H. unfold signum. rewrite (nth_indep _ (tzero A) (signum1 A (tzero A))) by (now rewrite map_length).
  apply map_nth.
Qed.

Definition env_of (o e b : list (T A)) (r m : T A) : ray_env A :=
  let dir := vdivs A (vsub A e o) (norm A (vsub A e o)) in
  mkEnv A o b r m (cell_from_point A e b r) (signum A dir) (init_t_delta A (signum A dir) dir r).
Definition tm_of (o e b : list (T A)) (r : T A) : list (T A) :=
  let dir := vdivs A (vsub A e o) (norm A (vsub A e o)) in
  init_t_max A (signum A dir) b o dir r (cell_from_point A o b r).

Lemma cast_unfold : forall fuel o e b r m,
  cast_ray A fuel o e b r m =
  if (Nat.eqb (length o) 2 || Nat.eqb (length o) 3) then
    if cell_eqb (cell_from_point A o b r) (cell_from_point A e b r)
    then Ret ([], Some (cell_from_point A e b r))
    else ray_loop A fuel (env_of o e b r m) (cell_from_point A o b r) (tm_of o e b r) [cell_from_point A o b r]
  else Panic.
Proof. intros. unfold cast_ray. destruct (_ || _); reflexivity. Qed.

Lemma loop_ok_init : forall d o e b r m, (d = 2 \/ d = 3)%nat ->
  length o = d -> length e = d -> length b = d ->
  cell_from_point A o b r <> cell_from_point A e b r ->
  loop_ok A d (env_of o e b r m) (cell_from_point A o b r) (tm_of o e b r).
Proof.
  intros d o e b r m Hd Lo Le Lb N.
  set (dir := vdivs A (vsub A e o) (norm A (vsub A e o))).
  assert (Ld : length dir = d).
  { unfold dir, vdivs, vsub. rewrite map_length. now apply map2_len. }
  assert (Ls : length (signum A dir) = d) by (unfold signum; now rewrite map_length).
  assert (Lc : length (cell_from_point A o b r) = d) by (unfold cell_from_point; now apply map2_len).
  constructor; try assumption.
  - cbn. unfold cell_from_point. now apply map2_len.
  - unfold tm_of. now apply length_init_t_max.
  - intros i Hi. cbn [re_step env_of re_t_delta]. fold dir.
    rewrite nth_signum by lia. destruct (sig (nth i dir (tzero A))) as [S|[S|[S Z]]]; auto.
    right; right. split; [assumption|]. unfold tm_of. fold dir.
    rewrite (nth_init_t_max d), (nth_init_t_delta d) by assumption.
    unfold axis_t_max, axis_t_delta. rewrite nth_signum by lia. rewrite Z. auto.
Qed.

Lemma cast_returns : forall fuel d o e b r m rc oe, (d = 2 \/ d = 3)%nat ->
  length o = d -> length e = d -> length b = d ->
  cast_ray A fuel o e b r m = Ret (rc, oe) ->
  let oc := cell_from_point A o b r in let ec := cell_from_point A e b r in
  (oc = ec /\ rc = [] /\ oe = Some ec) \/
  (oc <> ec /\ exists path, rc = oc :: path /\ connected (signs A (env_of o e b r m)) rc /\
    Forall (fun c => too_far A (env_of o e b r m) c = false /\ c <> ec) path /\
    match oe with
    | Some c => c = ec /\ connected (signs A (env_of o e b r m)) (rc ++ [c])
    | None => exists x, too_far A (env_of o e b r m) x = true /\ x <> ec /\
        (connected (signs A (env_of o e b r m)) (rc ++ [x]) \/ (path = [] /\ x = oc))
    end).
Proof.
  intros fuel d o e b r m rc oe Hd Lo Le Lb R oc ec. rewrite cast_unfold in R.
  destruct (_ || _); [|discriminate]. fold oc ec in R.
  destruct (cell_eqb oc ec) eqn:E.
  - apply cell_eqb_eq in E. injection R as <- <-. left. auto.
  - apply cell_eqb_neq in E. right. split; [assumption|].
    pose proof (loop_ok_init d o e b r m Hd Lo Le Lb E) as H. fold oc in H.
    destruct (loop_returns A inf_add _ _ _ _ _ _ _ _ H R) as (path & -> & C & F & O).
    exists path. split; [reflexivity|]. split; [exact C|]. split; [exact F|]. exact O.
Qed.
End Init.

(** ** f32 *)
Lemma f32_inf_add : tadd F32A (tinf F32A) (tinf F32A) = tinf F32A.
Proof. reflexivity. Qed.
Lemma to_isize_f1 : f32_to_isize f1 = 1. Proof. vm_compute. reflexivity. Qed.
Lemma to_isize_fm1 : f32_to_isize fm1 = -1. Proof. vm_compute. reflexivity. Qed.
Lemma f32_sig : forall v, let s := signum1 F32A v in
  t_to_isize F32A s = 1 \/ t_to_isize F32A s = -1 \/ (t_to_isize F32A s = 0 /\ teqb F32A s (tzero F32A) = true).
Proof.
  intros v s. unfold s, signum1. cbn [teqb tltb tzero tone tmone t_to_isize F32A].
  destruct (feqb v f0); [right; right; split; reflexivity|].
  destruct (fltb f0 v); [left; exact to_isize_f1|right; left; exact to_isize_fm1].
Qed.

Lemma sign_of_signum : forall v, f32_to_isize (signum1 F32A v) = sign_of v.
Proof.
  intro v. unfold signum1, sign_of. cbn [teqb tltb tzero tone tmone F32A].
  destruct (feqb v f0) eqn:E.
  - destruct (fltb f0 v) eqn:L; [|reflexivity]. apply feqb_iff in E. apply fltb_iff in L. lra.
  - destruct (fltb f0 v); [exact to_isize_f1|exact to_isize_fm1].
Qed.

Lemma square_length_model : forall v : point, (length v = 2 \/ length v = 3)%nat -> norm_squared F32A v = square_length v.
Proof.
  intros v H. destruct v as [|x [|y [|z [|w v]]]]; cbn in H; try lia; reflexivity.
Qed.

Lemma signs_env : forall d (o e b : point) r m, (d = 2 \/ d = 3)%nat -> length o = d -> length e = d ->
  signs F32A (env_of F32A o e b r m) = ray_signs o e.
Proof.
  intros d o e b r m Hd Lo Le. unfold signs, env_of, ray_signs, direction. cbn [re_step].
  unfold signum, vdivs, norm. rewrite !map_map.
  change (vsub F32A e o) with (map2 fsub e o).
  rewrite square_length_model by (rewrite (map2_len fsub d) by assumption; lia).
  apply map_ext. intro x. cbn [t_to_isize F32A]. apply sign_of_signum.
Qed.

Lemma too_far_iff : forall d (o e b : point) r m c, (d = 2 \/ d = 3)%nat ->
  length o = d -> length b = d -> length c = d ->
  (too_far F32A (env_of F32A o e b r m) c = true <-> fltb f0 m = true /\ beyond o b r m c).
Proof.
  intros d o e b r m c Hd Lo Lb Lc. unfold too_far, beyond, env_of. cbn [re_max_len re_bmin re_resolution re_origin tltb tzero F32A].
  destruct (fltb f0 m); [|intuition discriminate].
  change (vsub F32A (point_from_cell F32A c b r) o) with
    (map2 fsub (map2 (fun k b => fadd (fmul (f32_of_Z k) r) b) c b) o).
  rewrite square_length_model. cbn [tmul F32A]. tauto.
  rewrite (map2_len fsub d). lia. now apply map2_len. assumption.
Qed.

Lemma one_step_len : forall sg l a, connected sg (a :: l) -> Forall (fun c => length c = length a) l.
Proof.
  intros sg l. induction l as [|x l IH]; intros a H; constructor.
  - destruct H as [S _]. eapply one_step_length; eauto.
  - destruct H as [S H]. pose proof (one_step_length _ _ _ S) as L. rewrite <- L. apply IH. exact H.
Qed.

(** C29 *)
Lemma cast_connected : forall fuel d o e b r m rc oe, (d = 2 \/ d = 3)%nat ->
  length o = d -> length e = d -> length b = d ->
  cast_ray F32A fuel o e b r m = Ret (rc, oe) ->
  connected (ray_signs o e) rc /\ (forall c l, rc = c :: l -> c = cell_from_point F32A o b r).
Proof.
  intros fuel d o e b r m rc oe Hd Lo Le Lb R.
  destruct (cast_returns F32A f32_inf_add f32_sig _ _ _ _ _ _ _ _ _ Hd Lo Le Lb R)
    as [(E & -> & _)|(_ & path & -> & C & _)].
  - split; [exact I|discriminate].
  - rewrite (signs_env d) in C by assumption. split; [exact C|]. intros c l H. now injection H.
Qed.

(** C30 *)
Lemma cast_same_cell : forall fuel d (o e b : point) r m, (d = 2 \/ d = 3)%nat -> length o = d ->
  cell_from_point F32A o b r = cell_from_point F32A e b r ->
  cast_ray F32A fuel o e b r m = Ret ([], Some (cell_from_point F32A o b r)).
Proof.
  intros fuel d o e b r m Hd Lo E. rewrite cast_unfold, E, cell_eqb_refl.
  change (T F32A) with f32. rewrite Lo. destruct Hd as [-> | ->]; reflexivity.
Qed.

(** C31 *)
Lemma cast_completed : forall fuel d o e b r m rc c, (d = 2 \/ d = 3)%nat ->
  length o = d -> length e = d -> length b = d ->
  cast_ray F32A fuel o e b r m = Ret (rc, Some c) ->
  let oc := cell_from_point F32A o b r in
  c = cell_from_point F32A e b r /\ ~ In c rc /\ NoDup rc /\
  Z.of_nat (length rc) = manhattan oc c /\ (forall x, In x rc -> between oc c x).
Proof.
  intros fuel d o e b r m rc c Hd Lo Le Lb R oc.
  destruct (cast_returns F32A f32_inf_add f32_sig _ _ _ _ _ _ _ _ _ Hd Lo Le Lb R)
    as [(E & -> & EO)|(N & path & -> & C & F & -> & C2)].
  - injection EO as ->. split; [reflexivity|]. split; [easy|]. split; [constructor|]. split; [|easy].
    unfold oc. rewrite E, manhattan_refl. reflexivity.
  - split; [reflexivity|]. pose proof (connected_NoDup _ _ C2) as ND.
    apply NoDup_remove in ND. rewrite app_nil_r in ND. destruct ND as [ND NI].
    split; [assumption|]. split; [assumption|].
    split.
    + apply connected_mono in C2. destruct C2 as (_ & _ & M). unfold oc. rewrite M. cbn [length]. lia.
    + intros x Hx. eapply connected_between; [exact C2|].
      destruct Hx as [<-|Hx]; [now left|right; apply in_or_app; now left].
Qed.

(** C32 *)
Lemma cast_limited : forall fuel d o e b r m rc oe, (d = 2 \/ d = 3)%nat ->
  length o = d -> length e = d -> length b = d -> fltb f0 m = true ->
  cast_ray F32A fuel o e b r m = Ret (rc, oe) ->
  Forall (fun c => ~ beyond o b r m c) (tl rc) /\
  (oe = None -> exists x, beyond o b r m x /\ x <> cell_from_point F32A e b r /\
     (connected (ray_signs o e) (rc ++ [x]) \/ rc = [x])).
Proof.
  intros fuel d o e b r m rc oe Hd Lo Le Lb Hm R.
  destruct (cast_returns F32A f32_inf_add f32_sig _ _ _ _ _ _ _ _ _ Hd Lo Le Lb R)
    as [(E & -> & ->)|(N & path & -> & C & F & O)].
  - split; [constructor|discriminate].
  - assert (Lc : length (cell_from_point F32A o b r) = d).
    { unfold cell_from_point. now apply map2_len. }
    pose proof (one_step_len _ _ _ C) as LP. rewrite Lc in LP.
    cbn [tl]. split.
    + apply Forall_forall. intros x Hx B. rewrite Forall_forall in F, LP. destruct (F x Hx) as [F1 _].
      assert (too_far F32A (env_of F32A o e b r m) x = true).
      { apply (too_far_iff d); auto. } congruence.
    + intros ->. destruct O as (x & X1 & X2 & X3). exists x. rewrite (signs_env d) in * by assumption.
      assert (Lx : length x = d).
      { destruct X3 as [X3|[_ ->]]; [|assumption]. apply one_step_len in X3. rewrite Lc in X3.
        rewrite Forall_forall in X3. apply X3. apply in_or_app. right. now left. }
      split; [|split; [assumption|]].
      * apply (too_far_iff d) in X1; auto. tauto.
      * destruct X3 as [X3|[-> ->]]; auto.
Qed.

Lemma cast_prefix : forall fuel d o e b r m m0 rc0 c, (d = 2 \/ d = 3)%nat ->
  length o = d -> length e = d -> length b = d -> fltb f0 m0 = false -> fltb f0 m = true ->
  cast_ray F32A fuel o e b r m0 = Ret (rc0, Some c) ->
  (Forall (fun x => ~ beyond o b r m x) (tl rc0) ->
     cast_ray F32A fuel o e b r m = Ret (rc0, Some c)) /\
  (forall pre x post, rc0 = pre ++ x :: post -> pre <> [] ->
     Forall (fun x => ~ beyond o b r m x) (tl pre) -> beyond o b r m x ->
     cast_ray F32A fuel o e b r m = Ret (pre, None)).
Proof.
  intros fuel d o e b r m m0 rc0 c Hd Lo Le Lb Hm0 Hm R.
  pose proof (cast_connected _ _ _ _ _ _ _ _ _ Hd Lo Le Lb R) as [CC _].
  rewrite cast_unfold in *. destruct (_ || _); [|discriminate].
  assert (Lc : length (cell_from_point F32A o b r) = d).
  { unfold cell_from_point. now apply map2_len. }
  set (oc := cell_from_point F32A o b r) in *. set (ec := cell_from_point F32A e b r) in *.
  destruct (cell_eqb oc ec).
  - injection R as <- <-. split; [reflexivity|]. intros [|] x post H; discriminate.
  - change (env_of F32A o e b r m0) with (unlimited F32A (env_of F32A o e b r m) m0) in R.
    destruct (loop_cut F32A fuel (env_of F32A o e b r m) m0 oc _ _ _ _ Hm0 R) as (path & -> & P1 & P2).
    cbn [app tl] in *. apply one_step_len in CC. rewrite Lc in CC.
    assert (X : forall l, (forall x, In x l -> In x path) -> Forall (fun x => ~ beyond o b r m x) l ->
       Forall (fun x => too_far F32A (env_of F32A o e b r m) x = false) l).
    { intros l I H. rewrite Forall_forall in *. intros x Hx. destruct (too_far _ _ x) eqn:T; [|reflexivity].
      apply (too_far_iff d) in T; auto. elim (H x Hx). tauto. }
    split.
    + intro H. apply P1. apply X; auto.
    + intros [|p pre] x post E NE H B; [now elim NE|]. injection E as <- ->. cbn [tl] in H.
      apply (P2 pre x post eq_refl).
      * apply X; auto. intros y Hy. apply in_or_app. now left.
      * apply (too_far_iff d); auto. rewrite Forall_forall in CC. apply CC. apply in_or_app. right. now left.
Qed.

(** Nothing is cut when max_len is not positive: its value does not matter. *)
Lemma cast_unlimited : forall fuel (o e b : point) r m m', fltb f0 m = false -> fltb f0 m' = false ->
  cast_ray F32A fuel o e b r m = cast_ray F32A fuel o e b r m'.
Proof.
  intros fuel o e b r m m' H H'. rewrite !cast_unfold. destruct (_ || _); [|reflexivity].
  destruct (cell_eqb _ _); [reflexivity|].
  generalize (cell_from_point F32A o b r) at 1 3 as cur. generalize [cell_from_point F32A o b r] as acc.
  generalize (tm_of F32A o e b r) as tm. 
  induction fuel as [|fuel IH]; intros tm acc cur; [reflexivity|]. rewrite !loop_unfold. cbv zeta.
  change (re_step F32A (env_of F32A o e b r m')) with (re_step F32A (env_of F32A o e b r m)).
  change (next_cell F32A (env_of F32A o e b r m')) with (next_cell F32A (env_of F32A o e b r m)).
  change (next_tm F32A (env_of F32A o e b r m')) with (next_tm F32A (env_of F32A o e b r m)).
  change (re_end_cell F32A (env_of F32A o e b r m')) with (re_end_cell F32A (env_of F32A o e b r m)).
  destruct (in_isize _); [|reflexivity]. destruct (cell_eqb _ _); [reflexivity|].
  unfold too_far. cbn [re_max_len env_of tltb tzero F32A]. rewrite H, H'. apply IH.
Qed.

(** More fuel does not change what is returned. *)
Lemma cast_fuel : forall fuel fuel' (o e b : point) r m, (fuel <= fuel')%nat ->
  cast_ray F32A fuel o e b r m <> NoFuel ->
  cast_ray F32A fuel' o e b r m = cast_ray F32A fuel o e b r m.
Proof.
  intros fuel fuel' o e b r m L. rewrite !cast_unfold. destruct (_ || _); [|reflexivity].
  destruct (cell_eqb _ _); [reflexivity|]. intro H. now apply loop_fuel.
Qed.

(** A ray either arrives in as many steps as the cells are apart or not at all. *)
Lemma loop_length : forall fuel e cur tm acc rc oe, ray_loop F32A fuel e cur tm acc = Ret (rc, oe) ->
  exists n, (n <= fuel)%nat /\ (length acc + n = length rc + 1)%nat /\ ray_loop F32A n e cur tm acc = Ret (rc, oe).
Proof.
  induction fuel as [|fuel IH]; intros e cur tm acc rc oe R; [discriminate R|]. rewrite loop_unfold in R. cbv zeta in R.
  destruct (in_isize (nth (select_dim F32A tm) cur 0 + t_to_isize F32A (nth (select_dim F32A tm) (re_step F32A e) (tzero F32A)))) eqn:I; [|discriminate R].
  destruct (cell_eqb _ _) eqn:Q.
  { injection R as <- <-. exists 1%nat. split; [lia|]. split; [reflexivity|]. rewrite loop_unfold. cbv zeta. now rewrite I, Q. }
  destruct (too_far _ _ _) eqn:T.
  { injection R as <- <-. exists 1%nat. split; [lia|]. split; [reflexivity|]. rewrite loop_unfold. cbv zeta. now rewrite I, Q, T. }
  destruct (IH _ _ _ _ _ _ R) as (n & Ln & E & R'). exists (S n). rewrite app_length in E. cbn [length] in E. split; [lia|]. split; [lia|].
  rewrite loop_unfold. cbv zeta. now rewrite I, Q, T.
Qed.
Lemma loop_runs : forall fuel d e cur tm acc, loop_ok F32A d e cur tm -> (forall i, Z.abs (nth i cur 0) + Z.of_nat fuel < 2 ^ 63) -> ray_loop F32A fuel e cur tm acc <> Panic.
Proof.
  induction fuel as [|fuel IH]; intros d e cur tm acc H B; [discriminate|]. rewrite loop_unfold. cbv zeta. pose proof H as [Hd Hc He Ht Hs Hu Hn].
  assert (Hi : (select_dim F32A tm < d)%nat) by (rewrite <- Ht; apply select_dim_lt; lia).
  assert (U : Z.abs (t_to_isize F32A (nth (select_dim F32A tm) (re_step F32A e) (tzero F32A))) <= 1) by (destruct (Hu _ Hi) as [-> |[-> |(-> & _)]]; cbn; lia).
  pose proof (B (select_dim F32A tm)) as B0.
  assert (I : in_isize (nth (select_dim F32A tm) cur 0 + t_to_isize F32A (nth (select_dim F32A tm) (re_step F32A e) (tzero F32A))) = true).
  { unfold in_isize, isize_min, isize_max. apply andb_true_intro. split; apply Z.leb_le; lia. }
  rewrite I. destruct (cell_eqb _ _) eqn:Q; [discriminate|]. destruct (too_far _ _ _); [discriminate|]. apply cell_eqb_neq in Q.
  apply (IH d); [now apply loop_ok_next|]. intro i. specialize (B i). unfold next_cell.
  destruct (Nat.eq_dec (select_dim F32A tm) i) as [E|E]; [|rewrite nth_upd_other by assumption; lia].
  rewrite <- E, nth_upd_same by lia. lia.
Qed.
Lemma cast_decided : forall d (o e b : point) r m, (d = 2 \/ d = 3)%nat -> length o = d -> length e = d -> length b = d -> fltb f0 m = false ->
  let oc := cell_from_point F32A o b r in let ec := cell_from_point F32A e b r in let n := Z.to_nat (manhattan oc ec) in
  (exists rc, length rc = n /\ forall fuel, (n <= fuel)%nat -> cast_ray F32A fuel o e b r m = Ret (rc, Some ec)) \/
  (forall fuel, (forall res, cast_ray F32A fuel o e b r m <> Ret res) /\
     (Forall (fun c => Z.abs c + Z.of_nat fuel < 2 ^ 63) oc -> cast_ray F32A fuel o e b r m = NoFuel)).
Proof.
  intros d o e b r m Hd Lo Le Lb Hm oc ec n.
  assert (K : forall fuel res, cast_ray F32A fuel o e b r m = Ret res -> exists rc, res = (rc, Some ec) /\ length rc = n /\ cast_ray F32A n o e b r m = Ret (rc, Some ec)).
  { intros fuel [rc [c|]] R.
    - destruct (cast_completed fuel d o e b r m rc c Hd Lo Le Lb R) as (-> & _ & _ & Hl & _). fold oc ec in Hl |- *. exists rc. split; [reflexivity|].
      assert (Hn : length rc = n) by (unfold n; lia). split; [assumption|]. rewrite cast_unfold in R |- *. destruct (_ || _); [|discriminate R].
      fold oc ec in R |- *. destruct (cell_eqb oc ec); [exact R|]. destruct (loop_length _ _ _ _ _ _ _ R) as (k & _ & E & R'). cbn [length] in E. now replace n with k by lia.
    - exfalso. destruct (cast_returns F32A f32_inf_add f32_sig _ _ _ _ _ _ _ _ _ Hd Lo Le Lb R) as [(_ & _ & EO)|(_ & path & _ & _ & _ & x & T & _)]; [discriminate EO|].
      unfold too_far in T. cbn [re_max_len env_of tltb tzero F32A] in T. rewrite Hm in T. discriminate T. }
  assert (D : (forall res, cast_ray F32A n o e b r m <> Ret res) -> forall fuel, (forall res, cast_ray F32A fuel o e b r m <> Ret res) /\
     (Forall (fun c => Z.abs c + Z.of_nat fuel < 2 ^ 63) oc -> cast_ray F32A fuel o e b r m = NoFuel)).
  { intros N fuel. assert (NR : forall res, cast_ray F32A fuel o e b r m <> Ret res) by (intros res R'; destruct (K fuel res R') as (rc & _ & _ & X); exact (N _ X)).
    split; [assumption|]. intro B. rewrite cast_unfold in NR |- *. destruct (_ || _) eqn:Q; [clear Q|exfalso; revert Q; change ((Nat.eqb (length o) 2 || Nat.eqb (length o) 3) = false -> False); rewrite Lo; destruct Hd as [-> | ->]; discriminate].
    fold oc ec in NR |- *.
    destruct (cell_eqb oc ec) eqn:E; [now elim (NR _ eq_refl)|]. apply cell_eqb_neq in E.
    pose proof (loop_ok_init F32A f32_sig d o e b r m Hd Lo Le Lb E) as OK. fold oc in OK.
    assert (P : ray_loop F32A fuel (env_of F32A o e b r m) oc (tm_of F32A o e b r) [oc] <> Panic).
    { apply (loop_runs fuel d); [assumption|]. intro i. pose proof (lo_cur _ _ _ _ _ OK) as Lc. destruct (Nat.lt_ge_cases i (length oc)) as [L|L].
      - exact (proj1 (Forall_forall _ _) B _ (nth_In _ _ L)).
      - rewrite nth_overflow by assumption. destruct oc as [|c oc']; [cbn [length] in Lc; lia|]. apply Forall_inv in B. cbn [Z.abs]. lia. }
    destruct (ray_loop F32A fuel _ oc _ _) as [res| |]; [now elim (NR res)|now elim P|reflexivity]. }
  destruct (cast_ray F32A n o e b r m) as [res| |] eqn:R; [left|right; apply D; discriminate|right; apply D; discriminate].
  destruct (K n res R) as (rc & -> & Hl & _). exists rc. split; [assumption|]. intros fuel L. rewrite <- R. apply cast_fuel; [assumption|rewrite R; discriminate].
Qed.

(** The ray never steps away from its end. *)
Lemma sign_of_quotient : forall o e L : f32, finite o -> finite e -> finite L -> fltb f0 L = true ->
  (fle o e -> 0 <= sign_of (fdiv (fsub e o) L)) /\ (fle e o -> sign_of (fdiv (fsub e o) L) <= 0).
Proof.
  intros o e L Fo Fe FL HL. unfold finite in *.
  assert (PL : (0 < B2R L)%R).
  { apply fltb_iff in HL. destruct HL as (_ & _ & HL). rewrite !ext_finite in HL by (assumption || reflexivity). exact HL. }
  destruct (fsub_ext e o Fe Fo) as [N E]. set (x := fsub e o) in *.
  assert (SG : forall q : f32, is_nan q = false ->
     ((0 <= ext q)%R -> 0 <= sign_of q) /\ ((ext q <= 0)%R -> sign_of q <= 0)).
  { intros q Nq. unfold sign_of. split; intro H.
    - destruct (fltb f0 q) eqn:A; [lia|]. apply fltb_false_iff in A; try assumption; try reflexivity.
      simpl (ext f0) in A. replace (feqb q f0) with true. lia. symmetry. apply feqb_iff.
      repeat split; try assumption. simpl (ext f0). lra.
    - destruct (fltb f0 q) eqn:A; [|destruct (feqb q f0); lia]. apply fltb_iff in A. simpl (ext f0) in A. lra. }
  destruct (is_finite x) eqn:Fx.
  - destruct (fdiv_ext x L Fx FL ltac:(lra)) as [Nq Eq]. rewrite ext_finite in E by assumption.
    assert (clamp 0 = 0%R) as C0. { apply clamp_id. pose proof bp128_pos. lra. }
    assert (MU : forall a b c, (0 < c -> a <= b -> a / c <= b / c)%R).
    { intros a b c Hc Hab. apply Rmult_le_compat_r; [|assumption]. left. now apply Rinv_0_lt_compat. }
    split; intro H; apply fleb_iff in H; destruct H as (_ & _ & H); rewrite !ext_finite in H by assumption;
    apply SG; try assumption; rewrite Eq, <- C0; apply clamp_le; rewrite <- rnd_0; apply rnd_le.
    + replace 0%R with (0 / B2R L)%R by (field; lra). apply MU; [assumption|]. rewrite E, <- C0. apply clamp_le.
      rewrite <- rnd_0. apply rnd_le. lra.
    + replace 0%R with (0 / B2R L)%R by (field; lra). apply MU; [assumption|]. rewrite E, <- C0. apply clamp_le.
      rewrite <- rnd_0. apply rnd_le. lra.
  - destruct x as [|s| |]; try discriminate. rewrite fdiv_inf_l by assumption.
    assert (B := bp128_pos). assert (clamp 0 = 0%R) as C0. { apply clamp_id. lra. }
    split; intro H; apply fleb_iff in H; destruct H as (_ & _ & H); rewrite !ext_finite in H by assumption.
    + assert (0 <= ext (B754_infinity s))%R. { rewrite E, <- C0. apply clamp_le. rewrite <- rnd_0. apply rnd_le. lra. }
      destruct s; simpl in *; [lra|]. vm_compute. discriminate.
    + assert (ext (B754_infinity s) <= 0)%R. { rewrite E, <- C0. apply clamp_le. rewrite <- rnd_0. apply rnd_le. lra. }
      destruct s; simpl in *; [|lra]. vm_compute. discriminate.
Qed.

Lemma ray_signs_toward : forall (o e : point), length o = length e -> Forall finite o -> Forall finite e ->
  let L := fsqrt (square_length (map2 fsub e o)) in finite L -> fltb f0 L = true ->
  forall i, (i < length o)%nat ->
    (fle (nth i o f0) (nth i e f0) -> 0 <= nth i (ray_signs o e) 0) /\
    (fle (nth i e f0) (nth i o f0) -> nth i (ray_signs o e) 0 <= 0).
Proof.
  intros o e LL Fo Fe L FL HL i Hi. rewrite Forall_forall in Fo, Fe.
  assert (E : nth i (ray_signs o e) 0 = sign_of (fdiv (fsub (nth i e f0) (nth i o f0)) L)).
  { unfold ray_signs, direction. fold L. rewrite map_map.
    assert (Lm : length (map2 fsub e o) = length o) by (apply map2_len; congruence).
    rewrite (nth_indep _ 0 (sign_of (fdiv f0 L))) by (rewrite map_length; lia).
    rewrite (map_nth (fun x => sign_of (fdiv x L))). f_equal. f_equal.
    clear -Hi LL. revert e i Hi LL. induction o as [|x o IH]; intros [|y e] i Hi LL; cbn in *; try lia.
    destruct i; [reflexivity|]. apply IH; lia. }
  rewrite E. apply sign_of_quotient; try assumption.
  - apply Fo, nth_In. assumption.
  - apply Fe, nth_In. lia.
Qed.
