(** Structural facts about the ray caster, in any arithmetic. *)
From Coq Require Import ZArith List Bool Lia.
From Verif Require Import Base F32 Arith Geom RayCaster Spec.
Open Scope Z_scope.

(** ** Lists *)
Lemma upd_length : forall {A} (l : list A) i x, length (upd l i x) = length l.
Proof. induction l; intros [|i] x; cbn; auto. Qed.
Lemma nth_upd_same : forall {A} (l : list A) i x d, (i < length l)%nat -> nth i (upd l i x) d = x.
Proof. induction l; intros [|i] x d H; cbn in *; try lia; auto. apply IHl. lia. Qed.
Lemma nth_upd_other : forall {A} (l : list A) i j x d, i <> j -> nth j (upd l i x) d = nth j l d.
Proof. induction l; intros [|i] [|j] x d H; cbn; try easy. apply IHl. lia. Qed.
Lemma upd_self : forall {A} (l : list A) i d, upd l i (nth i l d) = l.
Proof. induction l; intros [|i] d; cbn; auto. f_equal. apply IHl. Qed.
Lemma nth_ext_Z : forall (a b : list Z), length a = length b ->
  (forall i, (i < length a)%nat -> nth i a 0 = nth i b 0) -> a = b.
Proof. intros a b L H. exact (nth_ext a b 0 0 L H). Qed.

Lemma cell_eqb_eq : forall a b, cell_eqb a b = true <-> a = b.
Proof.
  induction a as [|x a IH]; intros [|y b]; cbn; split; try easy.
  - intro H. apply andb_true_iff in H. destruct H as [H1 H2]. apply Z.eqb_eq in H1. apply IH in H2. congruence.
  - intro H. injection H as -> ->. rewrite Z.eqb_refl. now apply IH.
Qed.
Lemma cell_eqb_refl : forall a, cell_eqb a a = true.
Proof. intro a. now apply cell_eqb_eq. Qed.
Lemma cell_eqb_neq : forall a b, cell_eqb a b = false <-> a <> b.
Proof. intros a b. rewrite <- cell_eqb_eq. destruct (cell_eqb a b); split; congruence. Qed.

(** ** Manhattan distance *)
Lemma manhattan_nonneg : forall a b, 0 <= manhattan a b.
Proof. induction a as [|x a IH]; intros [|y b]; unfold manhattan in *; cbn; try lia. specialize (IH b). lia. Qed.
Lemma manhattan_zero : forall a b, length a = length b -> manhattan a b = 0 -> a = b.
Proof.
  induction a as [|x a IH]; intros [|y b] L H; try discriminate; auto.
  injection L as L. unfold manhattan in H. cbn in H. fold (manhattan a b) in H.
  pose proof (manhattan_nonneg a b). f_equal; [lia|]. apply IH; [assumption|lia].
Qed.
Lemma manhattan_refl : forall a, manhattan a a = 0.
Proof. induction a; cbn; auto. unfold manhattan in *. cbn. lia. Qed.
Lemma manhattan_upd : forall a b i v, length a = length b -> (i < length a)%nat ->
  manhattan (upd a i v) b = manhattan a b - Z.abs (nth i a 0 - nth i b 0) + Z.abs (v - nth i b 0).
Proof.
  induction a as [|x a IH]; intros [|y b] i v L Hi; try discriminate; cbn in Hi; [lia|].
  injection L as L. destruct i as [|i]; unfold manhattan; cbn; fold (manhattan a b).
  - lia.
  - fold (manhattan (upd a i v) b). rewrite IH by lia. lia.
Qed.

(** ** The next axis *)
Lemma select_dim_lt : forall A (t : list (T A)), (length t = 2 \/ length t = 3)%nat -> (select_dim A t < length t)%nat.
Proof.
  intros A t [L|L]; unfold select_dim; rewrite L; cbn [Nat.eqb];
  repeat match goal with |- context [if ?b then _ else _] => destruct b end; lia.
Qed.

Section Loop.
Context (A : arith).
Hypothesis inf_add : tadd A (tinf A) (tinf A) = tinf A.

(** The sign of the step on each axis, as an integer. *)
Definition signs (e : ray_env A) : list Z := map (t_to_isize A) (re_step A e).

(** What holds of the loop's state: the axes that do not move have infinite
    borders. *)
Record loop_ok (d : nat) (e : ray_env A) (cur : cell) (tm : list (T A)) : Prop := {
  lo_dim : (d = 2 \/ d = 3)%nat;
  lo_cur : length cur = d;
  lo_end : length (re_end_cell A e) = d;
  lo_tm : length tm = d;
  lo_step : length (re_step A e) = d;
  lo_unit : forall i, (i < d)%nat -> let s := t_to_isize A (nth i (re_step A e) (tzero A)) in
      s = 1 \/ s = -1 \/
      (s = 0 /\ nth i tm (tinf A) = tinf A /\ nth i (re_t_delta A e) (tinf A) = tinf A);
  lo_diff : cur <> re_end_cell A e
}.

Definition next_cell (e : ray_env A) (cur : cell) (tm : list (T A)) : cell :=
  let dim := select_dim A tm in
  upd cur dim (nth dim cur 0 + t_to_isize A (nth dim (re_step A e) (tzero A))).
Definition next_tm (e : ray_env A) (tm : list (T A)) : list (T A) :=
  let dim := select_dim A tm in
  upd tm dim (tadd A (nth dim tm (tinf A)) (nth dim (re_t_delta A e) (tinf A))).

(** One iteration. *)
Lemma loop_unfold : forall fuel e cur tm acc,
  ray_loop A (S fuel) e cur tm acc =
  (let dim := select_dim A tm in
   if in_isize (nth dim cur 0 + t_to_isize A (nth dim (re_step A e) (tzero A))) then
     if cell_eqb (next_cell e cur tm) (re_end_cell A e) then Ret (acc, Some (re_end_cell A e))
     else if too_far A e (next_cell e cur tm) then Ret (acc, None)
     else ray_loop A fuel e (next_cell e cur tm) (next_tm e tm) (acc ++ [next_cell e cur tm])
   else Panic).
Proof.
  intros. cbn [ray_loop]. unfold isz. cbv zeta.
  destruct (in_isize _); reflexivity.
Qed.

Lemma nth_signs : forall d e cur tm i, loop_ok d e cur tm -> (i < d)%nat ->
  nth i (signs e) 0 = t_to_isize A (nth i (re_step A e) (tzero A)).
Proof.
  intros d e cur tm i H Hi. unfold signs. destruct H.
  rewrite (nth_indep _ 0 (t_to_isize A (tzero A))) by (rewrite map_length; lia). apply map_nth.
Qed.

(** Standing still means standing still for ever. *)
Lemma stuck : forall fuel d e cur tm acc, loop_ok d e cur tm ->
  t_to_isize A (nth (select_dim A tm) (re_step A e) (tzero A)) = 0 ->
  too_far A e cur = false ->
  forall r, ray_loop A fuel e cur tm acc <> Ret r.
Proof.
  induction fuel as [|fuel IH]; intros d e cur tm acc H S0 NF r; [discriminate|].
  rewrite loop_unfold. cbv zeta. destruct (in_isize _); [|discriminate].
  assert (N : next_cell e cur tm = cur).
  { unfold next_cell. rewrite S0, Z.add_0_r. apply upd_self. }
  assert (M : next_tm e tm = tm).
  { unfold next_tm. destruct H. assert (Hd : (select_dim A tm < d)%nat).
    { rewrite <- lo_tm0 at 1. apply select_dim_lt. lia. }
    destruct (lo_unit0 _ Hd) as [X|[X|(X & Y & W)]]; try (rewrite S0 in X; discriminate).
    rewrite Y, W, inf_add. rewrite <- Y at 1. apply upd_self. }
  rewrite N, M. destruct (cell_eqb _ _) eqn:E.
  { apply cell_eqb_eq in E. destruct H. contradiction. }
  rewrite NF. eapply IH; eauto.
Qed.

Lemma loop_ok_next : forall d e cur tm, loop_ok d e cur tm ->
  next_cell e cur tm <> re_end_cell A e -> loop_ok d e (next_cell e cur tm) (next_tm e tm).
Proof.
  intros d e cur tm H N. destruct H. constructor; try assumption.
  - unfold next_cell. now rewrite upd_length.
  - unfold next_tm. now rewrite upd_length.
  - intros i Hi. destruct (lo_unit0 i Hi) as [X|[X|(X & Y & W)]]; auto.
    right; right. split; [assumption|]. split; [|assumption]. unfold next_tm.
    destruct (Nat.eq_dec (select_dim A tm) i) as [E|E].
    + rewrite E. rewrite nth_upd_same by lia. now rewrite Y, W.
    + rewrite nth_upd_other by assumption. assumption.
Qed.

(** Everything the loop can return. *)
Lemma loop_returns : forall fuel d e cur tm acc rc oe, loop_ok d e cur tm ->
  ray_loop A fuel e cur tm acc = Ret (rc, oe) ->
  exists path, rc = acc ++ path /\ connected (signs e) (cur :: path) /\
    Forall (fun c => too_far A e c = false /\ c <> re_end_cell A e) path /\
    match oe with
    | Some c => c = re_end_cell A e /\ connected (signs e) (cur :: path ++ [c])
    | None => exists x, too_far A e x = true /\ x <> re_end_cell A e /\
        (connected (signs e) (cur :: path ++ [x]) \/ (path = [] /\ x = cur))
    end.
Proof.
  induction fuel as [|fuel IH]; intros d e cur tm acc rc oe H R; [discriminate|].
  rewrite loop_unfold in R. cbv zeta in R. destruct (in_isize _); [|discriminate].
  assert (Hd : (select_dim A tm < d)%nat).
  { destruct H. rewrite <- lo_tm0 at 1. apply select_dim_lt. lia. }
  assert (ST : next_cell e cur tm = cur \/ one_step (signs e) cur (next_cell e cur tm)).
  { pose proof (nth_signs _ _ _ _ _ H Hd) as NS. destruct H.
    destruct (lo_unit0 _ Hd) as [X|[X|(X & Y & W)]].
    - right. exists (select_dim A tm). rewrite NS. split; [lia|]. split; [auto|]. reflexivity.
    - right. exists (select_dim A tm). rewrite NS. split; [lia|]. split; [auto|]. reflexivity.
    - left. unfold next_cell. rewrite X, Z.add_0_r. apply upd_self. }
  destruct (cell_eqb _ _) eqn:E.
  { injection R as <- <-. apply cell_eqb_eq in E. exists []. rewrite app_nil_r.
    split; [reflexivity|]. split; [exact I|]. split; [constructor|]. split; [reflexivity|].
    destruct ST as [ST|ST]. { destruct H. congruence. } rewrite E in ST. cbn. auto. }
  apply cell_eqb_neq in E.
  destruct (too_far A e (next_cell e cur tm)) eqn:TF.
  { injection R as <- <-. exists []. rewrite app_nil_r. split; [reflexivity|]. split; [exact I|].
    split; [constructor|]. exists (next_cell e cur tm). split; [assumption|]. split; [assumption|].
    destruct ST as [ST|ST]; [right|left]; cbn; auto. }
  destruct ST as [ST|ST].
  { exfalso. rewrite ST in R, TF.
    assert (S0 : t_to_isize A (nth (select_dim A tm) (re_step A e) (tzero A)) = 0).
    { apply (f_equal (fun l => nth (select_dim A tm) l 0)) in ST. unfold next_cell in ST.
      destruct H. rewrite nth_upd_same in ST by lia. lia. }
    assert (M : next_tm e tm = tm).
    { destruct H. unfold next_tm. destruct (lo_unit0 _ Hd) as [X|[X|(X & Y & W)]]; try (rewrite S0 in X; discriminate).
      rewrite Y, W, inf_add. rewrite <- Y at 1. apply upd_self. }
    rewrite M in R. eapply stuck in R; eauto. }
  pose proof (loop_ok_next _ _ _ _ H E) as H'.
  destruct (IH _ _ _ _ _ _ _ H' R) as (path & -> & C & F & O).
  exists (next_cell e cur tm :: path). rewrite <- app_assoc. split; [reflexivity|].
  split; [cbn; auto|]. split; [constructor; auto|].
  destruct oe as [c|].
  - destruct O as [-> O]. split; [reflexivity|]. cbn. auto.
  - destruct O as (x & X1 & X2 & [O|[-> ->]]).
    + exists x. split; [assumption|]. split; [assumption|]. left. cbn. auto.
    + rewrite X1 in TF. discriminate.
Qed.

(** The loop with a length limit against the loop without. *)
Definition unlimited (e : ray_env A) (m : T A) : ray_env A :=
  mkEnv A (re_origin A e) (re_bmin A e) (re_resolution A e) m (re_end_cell A e) (re_step A e) (re_t_delta A e).

Lemma loop_cut : forall fuel e m cur tm acc rc0 c, tltb A (tzero A) m = false ->
  ray_loop A fuel (unlimited e m) cur tm acc = Ret (rc0, Some c) ->
  exists path, rc0 = acc ++ path /\
    (Forall (fun x => too_far A e x = false) path ->
       ray_loop A fuel e cur tm acc = Ret (rc0, Some c)) /\
    (forall pre x post, path = pre ++ x :: post -> Forall (fun x => too_far A e x = false) pre ->
       too_far A e x = true -> ray_loop A fuel e cur tm acc = Ret (acc ++ pre, None)).
Proof.
  induction fuel as [|fuel IH]; intros e m cur tm acc rc0 c Hm R; [discriminate|].
  rewrite loop_unfold in R. cbv zeta in R.
  change (next_cell (unlimited e m) cur tm) with (next_cell e cur tm) in R.
  change (next_tm (unlimited e m) tm) with (next_tm e tm) in R.
  change (re_step A (unlimited e m)) with (re_step A e) in R.
  change (re_end_cell A (unlimited e m)) with (re_end_cell A e) in R.
  assert (TF : too_far A (unlimited e m) (next_cell e cur tm) = false).
  { unfold too_far. cbn [re_max_len unlimited]. now rewrite Hm. }
  rewrite TF in R. destruct (in_isize _) eqn:EI; [|discriminate].
  destruct (cell_eqb _ _) eqn:E.
  - injection R as <- <-. exists []. rewrite app_nil_r. split; [reflexivity|].
    assert (W : ray_loop A (S fuel) e cur tm acc = Ret (acc, Some (re_end_cell A e))).
    { rewrite loop_unfold. cbv zeta. now rewrite EI, E. }
    split; [now rewrite W|]. intros [|] x post P; discriminate.
  - destruct (IH _ _ _ _ _ _ _ Hm R) as (path & -> & P1 & P2).
    exists (next_cell e cur tm :: path). rewrite <- app_assoc. split; [reflexivity|].
    assert (W : ray_loop A (S fuel) e cur tm acc =
       if too_far A e (next_cell e cur tm) then Ret (acc, None)
       else ray_loop A fuel e (next_cell e cur tm) (next_tm e tm) (acc ++ [next_cell e cur tm])).
    { rewrite loop_unfold. cbv zeta. now rewrite EI, E. }
    rewrite W. split.
    + intro F. rewrite (Forall_inv F). rewrite P1 by (now apply Forall_inv_tail in F).
      now rewrite <- app_assoc.
    + intros [|p pre] x post EQ F X; injection EQ as <- ->.
      * rewrite X. now rewrite app_nil_r.
      * rewrite (Forall_inv F). rewrite (P2 pre x post eq_refl); auto.
        now rewrite <- app_assoc. now apply Forall_inv_tail in F.
Qed.

(** More fuel does not change a result. *)
Lemma loop_fuel : forall fuel fuel' e cur tm acc, (fuel <= fuel')%nat ->
  ray_loop A fuel e cur tm acc <> NoFuel ->
  ray_loop A fuel' e cur tm acc = ray_loop A fuel e cur tm acc.
Proof.
  induction fuel as [|fuel IH]; intros fuel' e cur tm acc L R; [now elim R|].
  destruct fuel' as [|fuel']; [lia|]. rewrite !loop_unfold in *. cbv zeta in *.
  destruct (in_isize _); [|reflexivity]. destruct (cell_eqb _ _); [reflexivity|].
  destruct (too_far _ _ _); [reflexivity|]. apply IH; [lia|assumption].
Qed.
End Loop.

(** ** Monotone paths *)

Lemma one_step_length : forall sg a b, one_step sg a b -> length b = length a.
Proof. intros sg a b (i & _ & _ & ->). apply upd_length. Qed.

(** Along a connected path each coordinate moves in its direction only. *)
Lemma connected_mono : forall sg l a b, connected sg (a :: l ++ [b]) ->
  length b = length a /\
  (forall i, (i < length a)%nat ->
     (nth i sg 0 = 1 /\ nth i a 0 <= nth i b 0) \/ (nth i sg 0 = -1 /\ nth i b 0 <= nth i a 0) \/
     nth i b 0 = nth i a 0) /\
  manhattan a b = Z.of_nat (length l) + 1.
Proof.
  intros sg l. induction l as [|x l IH]; intros a b H.
  - cbn in H. destruct H as [(i & Hi & S & ->) _]. rewrite upd_length. split; [reflexivity|]. split.
    + intros j Hj. destruct (Nat.eq_dec i j) as [<-|N].
      * rewrite nth_upd_same by assumption. destruct S as [S|S]; rewrite S; [left|right; left]; lia.
      * rewrite nth_upd_other by assumption. auto.
    + clear -Hi S. revert i Hi S. 
      assert (G : forall a i v, (i < length a)%nat -> manhattan a (upd a i v) = Z.abs (nth i a 0 - v)).
      { induction a0 as [|y a0 IH]; intros [|i] v Hi; cbn in Hi; try lia; unfold manhattan; cbn.
        - fold (manhattan a0 a0). rewrite manhattan_refl. lia.
        - fold (manhattan a0 (upd a0 i v)). rewrite IH by lia. lia. }
      intros i Hi S. rewrite G by assumption. cbn [length]. lia.
  - cbn [app] in H. destruct H as [S H]. destruct (IH x b H) as (L & M & D).
    pose proof (one_step_length _ _ _ S) as Lx. destruct S as (i & Hi & S & Ex).
    split; [congruence|]. split.
    + intros j Hj. destruct (M j ltac:(congruence)) as [M1|[M1|M1]]; subst x;
      destruct (Nat.eq_dec i j) as [<-|N]; rewrite ?nth_upd_same, ?nth_upd_other in M1 by assumption; try lia.
    + assert (E : a = upd x i (nth i a 0)).
      { subst x. generalize (nth i a 0 + nth i sg 0). clear. revert i. induction a as [|y a IH]; intros [|i] v; cbn; auto. f_equal. apply IH. }
      rewrite E. rewrite manhattan_upd by lia. rewrite D.
      destruct (M i ltac:(lia)) as [M1|[M1|M1]]; subst x; rewrite nth_upd_same in * by assumption;
      cbn [length]; lia.
Qed.

Lemma connected_app : forall sg l m, connected sg (l ++ m) -> connected sg l /\ connected sg m.
Proof.
  intros sg l m. induction l as [|a l IH]; intro H; [split; [exact I|assumption]|].
  destruct l as [|b l].
  - split; [exact I|]. cbn in H. destruct m; [exact I|]. apply H.
  - cbn [app] in H. destruct H as [S H]. destruct (IH H) as [H1 H2]. split; [|assumption]. split; assumption.
Qed.

Lemma connected_NoDup : forall sg l, connected sg l -> NoDup l.
Proof.
  intros sg l. induction l as [|a l IH]; intro H; constructor.
  - intro I. apply in_split in I. destruct I as (l1 & l2 & ->).
    assert (C : connected sg (a :: l1 ++ [a])).
    { change (a :: l1 ++ a :: l2) with ((a :: l1) ++ a :: l2) in H.
      replace ((a :: l1) ++ a :: l2) with ((a :: l1 ++ [a]) ++ l2) in H by (cbn; now rewrite <- app_assoc).
      now apply connected_app in H. }
    apply connected_mono in C. destruct C as (_ & _ & D). rewrite manhattan_refl in D. lia.
  - apply IH. destruct l; [exact I|]. apply H.
Qed.

Lemma connected_between : forall sg l a b x, connected sg (a :: l ++ [b]) -> In x (a :: l ++ [b]) -> between a b x.
Proof.
  intros sg l a b x H I. pose proof (connected_mono _ _ _ _ H) as (L & M & _).
  destruct I as [<-|I]. { split; [reflexivity|]. intros; lia. }
  apply in_app_or in I. destruct I as [I|[<-|[]]].
  2: { split; [assumption|]. intros; lia. }
  apply in_split in I. destruct I as (l1 & l2 & ->).
  assert (C1 : connected sg (a :: l1 ++ [x])).
  { replace (a :: (l1 ++ x :: l2) ++ [b]) with ((a :: l1 ++ [x]) ++ (l2 ++ [b])) in H
      by (cbn; now rewrite <- !app_assoc). now apply connected_app in H. }
  assert (C2 : connected sg (x :: l2 ++ [b])).
  { replace (a :: (l1 ++ x :: l2) ++ [b]) with ((a :: l1) ++ (x :: l2 ++ [b])) in H
      by (cbn; now rewrite <- !app_assoc). now apply connected_app in H. }
  apply connected_mono in C1, C2. destruct C1 as (L1 & M1 & _). destruct C2 as (L2 & M2 & _).
  split; [assumption|]. intros i Hi. specialize (M1 i Hi). specialize (M2 i ltac:(congruence)). lia.
Qed.
