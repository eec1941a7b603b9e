(** The cells of a ray: the order in which the borders of the axes are crossed. *)
From Coq Require Import ZArith List Bool Reals Lia Lra.
From Flocq Require Import Core BinarySingleNaN.
From Verif Require Import Base F32 FloatFacts Arith Geom RayCaster Spec SpecRay MathProofs GeomProofs BoundsProofs RayProofs CastProofs RayRange.
Open Scope Z_scope.

(** A time that can be added to for ever. *)
Definition steady (t s : f32) : Prop := fltb fninf t = true /\ fle f0 s.
Lemma steady_next : forall t s, steady t s -> steady (fadd t s) s /\ fle t (fadd t s).
Proof.
  intros t s [Ht Hs]. pose proof bp128_pos as B128.
  assert (Hn : is_nan t = false /\ is_nan s = false) by (apply fltb_iff in Ht; apply fleb_iff in Hs; tauto). destruct Hn as [Nt Ns].
  assert (K : is_nan (fadd t s) = false /\ (ext t <= ext (fadd t s))%R).
  { apply fltb_iff in Ht. apply fleb_iff in Hs. destruct Ht as (_ & _ & Ht), Hs as (_ & _ & Hs). simpl (ext fninf) in Ht. simpl (ext f0) in Hs.
    destruct (is_finite t) eqn:Ft.
    - destruct (is_finite s) eqn:Fs.
      + destruct (fadd_ext t s Ft Fs) as [N E]. split; [exact N|]. rewrite E. rewrite <- (clamp_ext t). apply clamp_le.
        rewrite ext_finite in Hs by assumption. rewrite ext_finite by assumption. rewrite <- (rnd_float t) at 1. apply rnd_le. lra.
      + destruct s as [|[|]| |]; try discriminate; simpl in Hs; [lra|]. destruct t as [| | |]; try discriminate; split; try reflexivity; simpl (ext (fadd _ _)).
        * simpl. lra.
        * change (ext (fadd (B754_finite s m e e0) (B754_infinity false))) with (bp 128). destruct (ext_bounds (B754_finite s m e e0)). lra.
    - destruct t as [|[|]| |]; try discriminate; simpl in Ht; [lra|]. destruct s as [|[|]| |]; try discriminate; simpl in Hs; try lra; split; try reflexivity; simpl; lra. }
  destruct K as [N L]. split; [split|].
  - apply fltb_iff. apply fltb_iff in Ht. destruct Ht as (_ & _ & Ht). repeat split; try assumption; lra.
  - assumption.
  - apply fleb_iff. auto.
Qed.
Lemma crossing_shift : forall t s k, crossing (fadd t s) s k = crossing t s (S k).
Proof. intros t s k. induction k as [|k IH]; [reflexivity|]. cbn [crossing] in *. now rewrite IH. Qed.
Lemma crossing_steady : forall t s k, steady t s -> steady (crossing t s k) s.
Proof. intros t s k H. induction k as [|k IH]; [exact H|]. cbn [crossing]. now apply steady_next. Qed.
Lemma crossing_mono : forall t s k, steady t s -> fle t (crossing t s k).
Proof.
  intros t s k H. induction k as [|k IH].
  - apply fle_refl. destruct H as [H _]. apply fltb_iff in H. tauto.
  - cbn [crossing]. eapply fle_trans; [exact IH|]. now apply steady_next, crossing_steady.
Qed.

Lemma before_le : forall i x j y y', before i x j y -> fle y y' -> before i x j y'.
Proof.
  intros i x j y y' [H|[H L]] K; [left|right].
  - apply fltb_iff in H. apply fleb_iff in K. apply fltb_iff. destruct H as (A & B & C), K as (D & E & F). repeat split; auto. lra.
  - split; [|assumption]. eapply fle_trans; eassumption.
Qed.
Lemma before_ge : forall i x x' j y, before i x j y -> fle x' x -> before i x' j y.
Proof.
  intros i x x' j y [H|[H L]] K; [left|right].
  - apply fltb_iff in H. apply fleb_iff in K. apply fltb_iff. destruct H as (A & B & C), K as (D & E & F). repeat split; auto. lra.
  - split; [|assumption]. eapply fle_trans; eassumption.
Qed.
Lemma before_asym : forall i x j y, i <> j -> before i x j y -> before j y i x -> False.
Proof.
  intros i x j y N H K. unfold before in *. rewrite !fltb_iff in *. unfold fle in *. rewrite !fleb_iff in *.
  destruct H as [H|[H L]], K as [K|[K M]]; try lra; lia.
Qed.

(** The axis that moves next is the one whose border comes first. *)
Lemma select_before : forall (tm : list f32) j, (length tm = 2 \/ length tm = 3)%nat -> (forall i, (i < length tm)%nat -> is_nan (nth i tm finf) = false) ->
  (j < length tm)%nat -> j <> select_dim F32A tm -> before (select_dim F32A tm) (nth (select_dim F32A tm) tm finf) j (nth j tm finf).
Proof.
  intros tm j L N Hj Hn.
  assert (C : forall x y : f32, is_nan x = false -> is_nan y = false -> fltb x y = false -> fle y x).
  { intros x y Nx Ny F. apply fleb_iff. apply fltb_false_iff in F; try assumption. auto. }
  assert (TR : forall x y z : f32, fltb x y = true -> fle y z -> fltb x z = true).
  { intros x y z H K. apply fltb_iff in H. apply fleb_iff in K. apply fltb_iff. destruct H as (? & ? & ?), K as (? & ? & ?). repeat split; auto. lra. }
  assert (TR' : forall x y z : f32, fle x y -> fltb y z = true -> fltb x z = true).
  { intros x y z K H. apply fltb_iff in H. apply fleb_iff in K. apply fltb_iff. destruct H as (? & ? & ?), K as (? & ? & ?). repeat split; auto. lra. }
  assert (LE : forall x y : f32, fltb x y = true -> fle x y).
  { intros x y H. apply fltb_iff in H. apply fleb_iff. destruct H as (? & ? & ?). repeat split; auto. lra. }
  pose proof (N 0%nat) as N0. pose proof (N 1%nat) as N1. pose proof (N 2%nat) as N2. clear N.
  destruct tm as [|a [|b [|c [|? ?]]]]; cbn [length] in *; try lia.
  - specialize (N0 ltac:(lia)). specialize (N1 ltac:(lia)). cbn [nth] in N0, N1. revert Hn. unfold select_dim. cbn [length Nat.eqb nth tltb tinf F32A].
    destruct (fltb a b) eqn:Q; intro Hn; destruct j as [|[|j]]; try lia; cbn [nth]; [now left|]. right. split; [now apply C|lia].
  - specialize (N0 ltac:(lia)). specialize (N1 ltac:(lia)). specialize (N2 ltac:(lia)). cbn [nth] in N0, N1, N2. revert Hn. unfold select_dim. cbn [length Nat.eqb nth tltb tinf F32A].
    destruct (fltb a b) eqn:Q1; [destruct (fltb a c) eqn:Q2|destruct (fltb b c) eqn:Q2]; intro Hn; destruct j as [|[|[|j]]]; try lia; cbn [nth]; try (now left);
    try (right; split; [now apply C|lia]).
    + left. apply (TR' _ a); [now apply C|assumption].
    + right. split; [|lia]. eapply fle_trans; [apply C; [| |exact Q2]; assumption|]. now apply C.
Qed.

(** ** The walk *)
Section Walk.
Variables (d : nat) (st : list f32) (sp : list f32).
Hypothesis Hd : (d = 2 \/ d = 3)%nat.
Let sg := map f32_to_isize st.
Definition move (x : cell * list f32) : cell * list f32 :=
  let i := select_dim F32A (snd x) in
  (upd (fst x) i (nth i (fst x) 0 + f32_to_isize (nth i st f0)), upd (snd x) i (fadd (nth i (snd x) finf) (nth i sp finf))).
Fixpoint walk (n : nat) (x : cell * list f32) : cell * list f32 := match n with O => x | S n' => walk n' (move x) end.
Record good (x : cell * list f32) : Prop := {
  go_cell : length (fst x) = d; go_times : length (snd x) = d; go_signs : length st = d;
  go_steady : forall i, (i < d)%nat -> steady (nth i (snd x) finf) (nth i sp finf);
  go_unit : forall i, (i < d)%nat -> nth i sg 0 = 1 \/ nth i sg 0 = -1 \/ (nth i sg 0 = 0 /\ nth i (snd x) finf = finf /\ nth i sp finf = finf)
}.
Lemma nth_sg : forall i, (i < length st)%nat -> f32_to_isize (nth i st f0) = nth i sg 0.
Proof. intros i H. unfold sg. rewrite (nth_indep _ 0 (f32_to_isize f0)) by now rewrite map_length. symmetry. apply map_nth. Qed.
Lemma good_select : forall x, good x -> (select_dim F32A (snd x) < d)%nat.
Proof. intros x G. pose proof (select_dim_lt F32A (snd x)) as S. change (T F32A) with f32 in S. rewrite (go_times x G) in S. auto. Qed.
Lemma good_move : forall x, good x -> good (move x).
Proof.
  intros x G. pose proof (good_select x G) as Hi. destruct G as [G1 G2 G3 G4 G5]. constructor; try assumption; unfold move; cbn [fst snd].
  - now rewrite upd_length.
  - now rewrite upd_length.
  - intros i H. destruct (Nat.eq_dec (select_dim F32A (snd x)) i) as [E|E].
    + rewrite <- E, nth_upd_same by lia. now apply steady_next, G4.
    + rewrite nth_upd_other by assumption. now apply G4.
  - intros i H. destruct (G5 i H) as [U|[U|(U & U1 & U2)]]; auto. right; right. split; [assumption|]. split; [|assumption].
    destruct (Nat.eq_dec (select_dim F32A (snd x)) i) as [E|E].
    + rewrite <- E, nth_upd_same by lia. rewrite E, U1, U2. reflexivity.
    + rewrite nth_upd_other; assumption.
Qed.
Lemma chosen : forall x j, good x -> (j < d)%nat -> j <> select_dim F32A (snd x) ->
  before (select_dim F32A (snd x)) (nth (select_dim F32A (snd x)) (snd x) finf) j (nth j (snd x) finf).
Proof.
  intros x j G Hj N. pose proof (go_times x G) as L. apply select_before; try assumption; try (rewrite L; assumption).
  intros i Hi. rewrite L in Hi. destruct (go_steady x G i Hi) as [H _]. apply fltb_iff in H. tauto.
Qed.

(** What moving does to the number of borders that are left. *)
Lemma stuck_same : forall x, good x -> nth (select_dim F32A (snd x)) sg 0 = 0 -> move x = x.
Proof.
  intros x G S0. pose proof (good_select x G) as Hi. destruct (go_unit x G _ Hi) as [U|[U|(_ & U1 & U2)]]; try lia.
  unfold move. rewrite nth_sg by (rewrite (go_signs x G); assumption). rewrite S0, Z.add_0_r, upd_self, U1, U2.
  change (fadd finf finf) with finf. rewrite <- U1 at 1. rewrite upd_self. now destruct x.
Qed.
Lemma borders_other : forall x y j, good x -> j <> select_dim F32A (snd x) -> borders (fst (move x)) y j = borders (fst x) y j.
Proof. intros x y j G N. unfold borders, move. cbn [fst]. rewrite nth_upd_other by congruence. reflexivity. Qed.
Lemma moved : forall x, good x -> nth (select_dim F32A (snd x)) (fst (move x)) 0 = nth (select_dim F32A (snd x)) (fst x) 0 + nth (select_dim F32A (snd x)) sg 0.
Proof.
  intros x G. pose proof (good_select x G) as Hi. unfold move. cbn [fst]. rewrite nth_upd_same by (rewrite (go_cell x G); assumption). rewrite nth_sg by (rewrite (go_signs x G); assumption). reflexivity.
Qed.
Lemma times_other : forall x j, good x -> j <> select_dim F32A (snd x) -> nth j (snd (move x)) finf = nth j (snd x) finf.
Proof. intros x j G N. unfold move. cbn [snd]. now rewrite nth_upd_other by congruence. Qed.
Lemma times_same : forall x, good x -> nth (select_dim F32A (snd x)) (snd (move x)) finf = fadd (nth (select_dim F32A (snd x)) (snd x) finf) (nth (select_dim F32A (snd x)) sp finf).
Proof. intros x G. pose proof (good_select x G) as Hi. unfold move. cbn [snd]. now rewrite nth_upd_same by (rewrite (go_times x G); assumption). Qed.
Lemma cells_other : forall x j, good x -> j <> select_dim F32A (snd x) -> nth j (fst (move x)) 0 = nth j (fst x) 0.
Proof. intros x j G N. unfold move. cbn [fst]. now rewrite nth_upd_other by congruence. Qed.

Definition ahead (x : cell * list f32) (y : cell) : Prop := on_the_way d sg (snd x) sp (fst x) y.
(** Every cell the walk comes to lies ahead of it. *)
Lemma ahead_back : forall x y, good x -> ahead (move x) y -> ahead x y.
Proof.
  intros x y G A. pose proof (good_select x G) as Hi0. pose proof (moved x G) as MV. pose proof (times_same x G) as TS. pose proof (fun j => chosen x j G) as CH. pose proof (fun j => times_other x j G) as TO. pose proof (fun y j => borders_other x y j G) as BO. pose proof (fun j => cells_other x j G) as CO. set (i0 := select_dim F32A (snd x)) in *.
  destruct (Z.eq_dec (nth i0 sg 0) 0) as [S0|S0]. { now rewrite (stuck_same x G S0) in A. }
  assert (SG : nth i0 sg 0 = 1 \/ nth i0 sg 0 = -1) by (destruct (go_unit x G i0 Hi0) as [U|[U|(U & _)]]; auto; lia).
  destruct A as (Ly & A1 & A2).
  assert (B0 : borders (fst x) y i0 = S (borders (fst (move x)) y i0)).
  { specialize (A1 i0 Hi0). unfold borders in *. rewrite MV in *. rewrite Z2Nat.id in A1 by lia. destruct SG as [E|E]; rewrite E in *; lia. }
  split; [assumption|]. split.
  - intros i Hi. destruct (Nat.eq_dec i i0) as [->|N].
    + specialize (A1 i0 Hi0). rewrite B0. rewrite MV in A1. rewrite Nat2Z.inj_succ. nia.
    + specialize (A1 i Hi). rewrite BO, CO in A1 by assumption. exact A1.
  - intros i j Hi Hj N P. destruct (Nat.eq_dec i i0) as [->|Ni].
    + destruct (borders (fst (move x)) y i0) as [|k] eqn:Ek.
      * rewrite B0. cbn [Nat.sub crossing]. eapply before_le; [apply CH; [assumption|congruence]|]. apply crossing_mono, (go_steady x G), Hj.
      * specialize (A2 i0 j Hi0 Hj N). rewrite Ek in A2. specialize (A2 ltac:(lia)). rewrite TS in A2.
        rewrite TO, BO in A2 by congruence. rewrite crossing_shift in A2. rewrite B0. replace (S (S k) - 1)%nat with (S (S k - 1)) by lia. exact A2.
    + destruct (Nat.eq_dec j i0) as [->|Nj].
      * specialize (A2 i i0 Hi Hi0 Ni). rewrite BO in A2 by assumption. specialize (A2 P). rewrite TO in A2 by assumption. rewrite TS in A2.
        rewrite crossing_shift in A2. rewrite B0. exact A2.
      * specialize (A2 i j Hi Hj N). rewrite !BO, !TO in A2 by assumption. exact (A2 P).
Qed.
Lemma ahead_here : forall x, good x -> ahead x (fst x).
Proof.
  intros x G. split; [apply (go_cell x G)|]. assert (B : forall i, borders (fst x) (fst x) i = 0%nat) by (intro i; unfold borders; now rewrite Z.sub_diag).
  split; intros i; [intros Hi; rewrite B; lia|]. intros j _ _ _ P. rewrite B in P. lia.
Qed.
Lemma good_walk : forall n x, good x -> good (walk n x).
Proof. induction n as [|n IH]; intros x G; cbn [walk]; [assumption|]. apply IH, good_move, G. Qed.
Lemma walk_ahead : forall n x, good x -> ahead x (fst (walk n x)).
Proof.
  induction n as [|n IH]; intros x G; cbn [walk]; [now apply ahead_here|]. apply ahead_back; [assumption|]. apply IH, good_move, G.
Qed.

(** The walk comes closer to every cell ahead of it. *)
Lemma ahead_on : forall x y, good x -> ahead x y -> y <> fst x ->
  ahead (move x) y /\ (0 < borders (fst x) y (select_dim F32A (snd x)))%nat.
Proof.
  intros x y G A N. pose proof (good_select x G) as Hi0. pose proof (moved x G) as MV. pose proof (times_same x G) as TS. pose proof (fun j => chosen x j G) as CH. pose proof (fun j => times_other x j G) as TO. pose proof (fun y j => borders_other x y j G) as BO. pose proof (fun j => cells_other x j G) as CO. set (i0 := select_dim F32A (snd x)) in *. destruct A as (Ly & A1 & A2).
  assert (EX : exists j, (j < d)%nat /\ (0 < borders (fst x) y j)%nat).
  { destruct (existsb (fun j => Nat.ltb 0 (borders (fst x) y j)) (seq 0 d)) eqn:Q.
    - apply existsb_exists in Q. destruct Q as (j & Hj & Q). apply in_seq in Hj. apply Nat.ltb_lt in Q. exists j. split; [lia|assumption].
    - exfalso. apply N. apply nth_ext_Z; [rewrite Ly; symmetry; apply (go_cell x G)|]. intros j Hj.
      assert (Z0 : borders (fst x) y j = 0%nat).
      { destruct (borders (fst x) y j) eqn:E; [reflexivity|]. exfalso. assert (T : existsb (fun j => Nat.ltb 0 (borders (fst x) y j)) (seq 0 d) = true); [|congruence].
        apply existsb_exists. exists j. rewrite E. split; [apply in_seq; lia|reflexivity]. }
      specialize (A1 j ltac:(lia)). rewrite Z0 in A1. lia. }
  assert (P0 : (0 < borders (fst x) y i0)%nat).
  { destruct EX as (j & Hj & Pj). destruct (Nat.eq_dec j i0) as [->|Nj]; [assumption|]. destruct (borders (fst x) y i0) as [|k] eqn:E0; [|lia]. exfalso.
    specialize (A2 j i0 Hj Hi0 Nj Pj). rewrite E0 in A2. cbn [crossing] in A2. apply (before_asym j (nth j (snd x) finf) i0 (nth i0 (snd x) finf) Nj).
    - eapply before_ge; [exact A2|]. apply crossing_mono, (go_steady x G), Hj.
    - now apply CH. }
  split; [|exact P0].
  assert (SG : nth i0 sg 0 = 1 \/ nth i0 sg 0 = -1).
  { destruct (go_unit x G i0 Hi0) as [U|[U|(U & _)]]; auto. specialize (A1 i0 Hi0). rewrite U in A1. unfold borders in P0. lia. }
  assert (B0 : borders (fst x) y i0 = S (borders (fst (move x)) y i0)).
  { specialize (A1 i0 Hi0). unfold borders in *. rewrite MV. rewrite Z2Nat.id in A1 by lia. destruct SG as [E|E]; rewrite E in *; lia. }
  split; [assumption|]. split.
  - intros i Hi. destruct (Nat.eq_dec i i0) as [->|Ni].
    + specialize (A1 i0 Hi0). rewrite B0, Nat2Z.inj_succ in A1. rewrite MV. lia.
    + rewrite BO, CO by assumption. now apply A1.
  - intros i j Hi Hj Nij P. destruct (Nat.eq_dec i i0) as [->|Ni].
    + specialize (A2 i0 j Hi0 Hj Nij P0). rewrite B0 in A2. rewrite TS, crossing_shift, TO, (BO y j) by congruence.
      destruct (borders (fst (move x)) y i0) as [|k]; [lia|]. replace (S (S k - 1)) with (S (S k) - 1)%nat by lia. exact A2.
    + rewrite TO, (BO y i) by assumption. rewrite BO in P by assumption. specialize (A2 i j Hi Hj Nij P). destruct (Nat.eq_dec j i0) as [->|Nj].
      * rewrite B0 in A2. rewrite TS, crossing_shift. exact A2.
      * now rewrite TO, BO.
Qed.
End Walk.

(** ** The loop walks *)
Lemma manhattan_move : forall d st sp x y, (d = 2 \/ d = 3)%nat -> good d st sp x -> ahead d st sp x y -> y <> fst x ->
  manhattan (fst (move st sp x)) y = manhattan (fst x) y - 1.
Proof.
  intros d st sp x y Hd G A N. destruct (ahead_on d st sp Hd x y G A N) as [_ P]. pose proof (good_select d st sp Hd x G) as Hi. pose proof (moved d st sp Hd x G) as MV.
  pose proof (proj1 (proj2 A) _ Hi) as A1. pose proof (proj1 A) as Ly. pose proof (go_cell _ _ _ _ G) as Lx.
  assert (SG := go_unit _ _ _ _ G _ Hi).
  unfold move in *. cbn [fst] in *. set (i0 := select_dim F32A (snd x)) in *. rewrite nth_upd_same in MV by lia.
  rewrite manhattan_upd by lia. unfold borders in *. destruct SG as [E|[E|(E & _)]]; rewrite E in *; lia.
Qed.
Lemma walk_arrives : forall d st sp, (d = 2 \/ d = 3)%nat -> forall n x y, good d st sp x -> ahead d st sp x y -> manhattan (fst x) y = Z.of_nat n -> fst (walk st sp n x) = y.
Proof.
  intros d st sp Hd. induction n as [|n IH]; intros x y G A M; cbn [walk].
  - apply manhattan_zero; [|exact M]. rewrite (proj1 A). apply (go_cell _ _ _ _ G).
  - assert (N : y <> fst x) by (intros ->; rewrite manhattan_refl in M; lia).
    apply IH; [now apply good_move|now apply ahead_on|]. rewrite (manhattan_move d) by assumption. lia.
Qed.
Lemma loop_walk : forall fuel e cur tm acc rc c, ray_loop F32A fuel e cur tm acc = Ret (rc, Some c) ->
  exists n, rc = acc ++ map (fun k => fst (walk (re_step F32A e) (re_t_delta F32A e) k (cur, tm))) (seq 1 n) /\
    c = re_end_cell F32A e /\ fst (walk (re_step F32A e) (re_t_delta F32A e) (S n) (cur, tm)) = c.
Proof.
  induction fuel as [|fuel IH]; intros e cur tm acc rc c R; [discriminate R|]. rewrite loop_unfold in R. cbv zeta in R.
  destruct (in_isize _); [|discriminate R]. destruct (cell_eqb _ _) eqn:Q.
  - injection R as <- <-. apply cell_eqb_eq in Q. exists 0%nat. cbn [seq map]. rewrite app_nil_r. split; [reflexivity|]. split; [reflexivity|]. exact Q.
  - destruct (too_far _ _ _); [discriminate R|]. destruct (IH _ _ _ _ _ _ R) as (n & -> & -> & W). exists (S n). split; [|split; [reflexivity|exact W]].
    rewrite <- app_assoc. f_equal. cbn [seq map app]. f_equal. rewrite <- (seq_shift n 1), map_map. reflexivity.
Qed.
Lemma loop_arrives : forall n d e cur tm acc, (d = 2 \/ d = 3)%nat -> good d (re_step F32A e) (re_t_delta F32A e) (cur, tm) ->
  ahead d (re_step F32A e) (re_t_delta F32A e) (cur, tm) (re_end_cell F32A e) -> cells_in_isize cur -> cells_in_isize (re_end_cell F32A e) ->
  cur <> re_end_cell F32A e -> fltb f0 (re_max_len F32A e) = false -> manhattan cur (re_end_cell F32A e) = Z.of_nat n ->
  exists rc, ray_loop F32A n e cur tm acc = Ret (rc, Some (re_end_cell F32A e)).
Proof.
  induction n as [|n IH]; intros d e cur tm acc Hd G A I1 I2 N U M.
  { exfalso. apply N. apply manhattan_zero; [|exact M]. rewrite (proj1 A). apply (go_cell _ _ _ _ G). }
  assert (N' : re_end_cell F32A e <> fst (cur, tm)) by (cbn [fst]; congruence).
  pose proof (good_select _ _ _ Hd _ G) as Hi. cbn [snd] in Hi. pose proof (go_cell _ _ _ _ G) as Lc. cbn [fst] in Lc.
  destruct (ahead_on d _ _ Hd _ _ G A N') as [A' P]. pose proof (manhattan_move d _ _ _ _ Hd G A N') as M'. cbn [fst] in M'.
  pose proof (proj1 (proj2 A) _ Hi) as A1. pose proof (proj1 A) as Ly. cbn [fst snd] in A1, P.
  pose proof (go_unit _ _ _ _ G _ Hi) as SG. cbn [snd] in SG.
  assert (ST : f32_to_isize (nth (select_dim F32A tm) (re_step F32A e) f0) = nth (select_dim F32A tm) (map f32_to_isize (re_step F32A e)) 0).
  { apply nth_sg. pose proof (go_signs _ _ _ _ G) as X. lia. }
  assert (C1 := proj1 (Forall_forall _ _) I1 (nth (select_dim F32A tm) cur 0) ltac:(apply nth_In; lia)).
  assert (C2 := proj1 (Forall_forall _ _) I2 (nth (select_dim F32A tm) (re_end_cell F32A e) 0) ltac:(apply nth_In; lia)).
  assert (C3 : in_isize (nth (select_dim F32A tm) cur 0 + t_to_isize F32A (nth (select_dim F32A tm) (re_step F32A e) (tzero F32A))) = true).
  { change (t_to_isize F32A) with f32_to_isize. change (tzero F32A) with f0. rewrite ST. cbv beta in C1, C2. unfold in_isize in *. apply andb_true_intro. unfold borders in *. rewrite !Z.leb_le. destruct SG as [E|[E|(E & _)]]; rewrite E in *; lia. }
  rewrite loop_unfold. cbv zeta. rewrite C3. destruct (cell_eqb _ _) eqn:Q; [eauto|]. apply cell_eqb_neq in Q.
  assert (T : too_far F32A e (next_cell F32A e cur tm) = false) by (unfold too_far; cbn [tltb tzero F32A]; now rewrite U). rewrite T.
  apply (IH d); try assumption.
  - exact (good_move _ _ _ Hd _ G).
  - apply Forall_forall. intros z Hz. unfold next_cell in Hz. apply In_nth with (d := 0) in Hz. destruct Hz as (j & Hj & <-). rewrite upd_length in Hj.
    destruct (Nat.eq_dec (select_dim F32A tm) j) as [Ej|Ej].
    + rewrite <- Ej, nth_upd_same by lia. unfold in_isize in C3. rewrite andb_true_iff, !Z.leb_le in C3. exact C3.
    + rewrite nth_upd_other by assumption. exact (proj1 (Forall_forall _ _) I1 _ (nth_In _ _ Hj)).
  - change (next_cell F32A e cur tm) with (fst (move (re_step F32A e) (re_t_delta F32A e) (cur, tm))). rewrite M'. lia.
Qed.

(** ** The numbers of cast_ray *)
Lemma sign_zero : forall x : f32, feqb (signum1 F32A x) f0 = (sign_of x =? 0).
Proof.
  intro x. unfold signum1, sign_of. cbn [teqb tltb tzero tone tmone F32A]. destruct (feqb x f0) eqn:E.
  - destruct (fltb f0 x) eqn:L; [|reflexivity]. apply feqb_iff in E. apply fltb_iff in L. lra.
  - destruct (fltb f0 x); vm_compute; reflexivity.
Qed.
Lemma sign_float : forall x : f32, sign_of x =? 0 = false -> signum1 F32A x = f32_of_Z (sign_of x).
Proof.
  intro x. unfold signum1, sign_of. cbn [teqb tltb tzero tone tmone F32A]. destruct (feqb x f0) eqn:E.
  - destruct (fltb f0 x) eqn:L; [|discriminate]. apply feqb_iff in E. apply fltb_iff in L. lra.
  - intros _. destruct (fltb f0 x); apply B2SF_inj; vm_compute; reflexivity.
Qed.
Lemma dir_env : forall d (o e : point), (d = 2 \/ d = 3)%nat -> length o = d -> length e = d ->
  vdivs F32A (vsub F32A e o) (norm F32A (vsub F32A e o)) = direction o e.
Proof.
  intros d o e Hd Lo Le. unfold direction, vdivs, norm. change (vsub F32A e o) with (map2 fsub e o).
  rewrite square_length_model by (rewrite (map2_len fsub d) by assumption; lia). reflexivity.
Qed.
Lemma deltas_env : forall d (o e b : point) r m, (d = 2 \/ d = 3)%nat -> length o = d -> length e = d ->
  re_t_delta F32A (env_of F32A o e b r m) = spacings o e r.
Proof.
  intros d o e b r m Hd Lo Le. unfold env_of, spacings. cbn [re_t_delta]. rewrite (dir_env d) by assumption. unfold init_t_delta, signum.
  induction (direction o e) as [|x l IH]; [reflexivity|]. cbn [map map2]. f_equal; [|exact IH].
  unfold axis_t_delta, spacing. cbn [teqb tzero tinf tdiv tabs F32A]. now rewrite sign_zero.
Qed.
Lemma times_env : forall d (o e b : point) r, (d = 2 \/ d = 3)%nat -> length o = d -> length e = d -> length b = d ->
  tm_of F32A o e b r = first_crossings o e b r (cell_from_point F32A o b r).
Proof.
  intros d o e b r Hd Lo Le Lb. unfold tm_of, first_crossings. rewrite (dir_env d) by assumption.
  assert (Lc : length (cell_from_point F32A o b r) = d) by (unfold cell_from_point; now apply map2_len).
  assert (Ld : length (direction o e) = d) by (unfold direction; rewrite map_length; now apply map2_len).
  unfold signum. revert Lc Ld. generalize (cell_from_point F32A o b r) (direction o e). intros c l Lc Ld. clear Hd Le e. revert l c o b Lo Lb Lc Ld.
  induction d as [|d IH]; intros [|x l] [|k c] [|p o] [|q b] Lo Lb Lc Ld; try discriminate; [reflexivity|].
  cbn [map init_t_max map2 fst snd]. f_equal; [|apply IH; cbn [length] in *; lia].
  unfold axis_t_max, first_crossing. cbn [teqb tzero tinf tdiv tsub tadd tmul thalf F32A]. rewrite sign_zero. destruct (sign_of x =? 0) eqn:Z0; [reflexivity|].
  rewrite sign_float by assumption. reflexivity.
Qed.
Lemma cell_isize : forall (p b : point) r, cells_in_isize (cell_from_point F32A p b r).
Proof.
  intros p b r. unfold cell_from_point. revert b. induction p as [|x p IH]; intros [|y b]; cbn [map2]; constructor; [|apply IH].
  unfold cell_coord_from_point_coord. cbn [t_to_isize F32A]. unfold f32_to_isize. destruct (tround F32A _) as [s|[|]| |s mm ex B]; unfold isize_min, isize_max in *; lia.
Qed.
Lemma good_start : forall d (o e b : point) r m, (d = 2 \/ d = 3)%nat -> length o = d -> length e = d -> length b = d ->
  let oc := cell_from_point F32A o b r in well_timed o e b r oc -> oc <> cell_from_point F32A e b r ->
  good d (re_step F32A (env_of F32A o e b r m)) (re_t_delta F32A (env_of F32A o e b r m)) (oc, tm_of F32A o e b r).
Proof.
  intros d o e b r m Hd Lo Le Lb oc W N. pose proof (loop_ok_init F32A f32_sig d o e b r m Hd Lo Le Lb N) as OK. fold oc in OK.
  assert (LT := lo_tm _ _ _ _ _ OK). constructor.
  - apply (lo_cur _ _ _ _ _ OK).
  - exact LT.
  - apply (lo_step _ _ _ _ _ OK).
  - intros i Hi. cbn [snd]. rewrite (deltas_env d), (times_env d) by assumption. fold oc.
    assert (L1 : length (first_crossings o e b r oc) = d) by (unfold oc; rewrite <- (times_env d) by assumption; exact LT).
    clear -W Hi L1. revert i Hi. unfold well_timed in W. revert d L1. induction W as [|t s l l' H W IH]; intros d L1 i Hi; cbn [length] in L1; [lia|].
    destruct i as [|i]; [exact H|]. cbn [nth]. apply (IH (length l) eq_refl). lia.
  - intros i Hi. cbn [snd]. pose proof (lo_unit _ _ _ _ _ OK i Hi) as U. cbv zeta in U. pose proof (nth_signs F32A d _ _ _ i OK Hi) as S. unfold signs in S. rewrite <- S in U. exact U.
Qed.

Lemma passes_ahead : forall d (o e b : point) r m x, (d = 2 \/ d = 3)%nat -> length o = d -> length e = d -> length b = d ->
  let oc := cell_from_point F32A o b r in
  passes d o e b r oc x = ahead d (re_step F32A (env_of F32A o e b r m)) (re_t_delta F32A (env_of F32A o e b r m)) (oc, tm_of F32A o e b r) x.
Proof.
  intros d o e b r m x Hd Lo Le Lb oc. unfold passes, ahead. cbn [fst snd]. rewrite (times_env d), (deltas_env d) by assumption.
  rewrite <- (signs_env d o e b r m) by assumption. reflexivity.
Qed.
Lemma cast_condition : forall d (o e b : point) r m, (d = 2 \/ d = 3)%nat -> length o = d -> length e = d -> length b = d -> fltb f0 m = false ->
  let oc := cell_from_point F32A o b r in let ec := cell_from_point F32A e b r in well_timed o e b r oc ->
  ((exists fuel res, cast_ray F32A fuel o e b r m = Ret res) <-> passes d o e b r oc ec).
Proof.
  intros d o e b r m Hd Lo Le Lb Hm oc ec W. rewrite (passes_ahead d o e b r m) by assumption. fold oc.
  assert (LO : (Nat.eqb (length o) 2 || Nat.eqb (length o) 3) = true) by (rewrite Lo; destruct Hd as [-> | ->]; reflexivity).
  destruct (cell_eqb oc ec) eqn:Q.
  - split; intros _.
    + pose proof (proj1 (cell_eqb_eq _ _) Q) as Q'. unfold ahead, on_the_way. cbn [fst snd]. rewrite <- Q'.
      split; [unfold oc, cell_from_point; now apply map2_len|]. assert (B : forall i, borders oc oc i = 0%nat) by (intro i; unfold borders; now rewrite Z.sub_diag).
      split; intros i; [intros Hi; rewrite B; lia|]. intros j _ _ _ P. rewrite B in P. lia.
    + exists 0%nat, ([], Some ec). rewrite cast_unfold. fold oc ec. rewrite Q. change (T F32A) with f32. now rewrite LO.
  - pose proof (proj1 (cell_eqb_neq _ _) Q) as N. pose proof (good_start d o e b r m Hd Lo Le Lb W N) as G. fold oc in G. split.
    + intros (fuel & [rc oe] & R). pose proof R as R0. rewrite cast_unfold in R. fold oc ec in R. rewrite Q in R. change (T F32A) with f32 in R. rewrite LO in R.
      destruct oe as [c|].
      * destruct (loop_walk _ _ _ _ _ _ _ R) as (n & _ & -> & E). change ec with (re_end_cell F32A (env_of F32A o e b r m)). rewrite <- E. now apply walk_ahead.
      * exfalso. destruct (cast_returns F32A f32_inf_add f32_sig _ _ _ _ _ _ _ _ _ Hd Lo Le Lb R0) as [(_ & _ & EO)|(_ & path & _ & _ & _ & x & T & _)]; [discriminate EO|].
        unfold too_far in T. cbn [re_max_len env_of tltb tzero F32A] in T. rewrite Hm in T. discriminate T.
    + intro A. destruct (loop_arrives (Z.to_nat (manhattan oc ec)) d (env_of F32A o e b r m) oc (tm_of F32A o e b r) [oc] Hd G A) as [rc R]; try assumption.
      * apply cell_isize. * apply cell_isize. * symmetry. apply Z2Nat.id, manhattan_nonneg.
      * exists (Z.to_nat (manhattan oc ec)), (rc, Some ec). rewrite cast_unfold. fold oc ec. rewrite Q. change (T F32A) with f32. rewrite LO. exact R.
Qed.

Lemma between_nearer : forall a b x : cell, length a = length b -> between a b x -> x <> b -> manhattan a x < manhattan a b.
Proof.
  induction a as [|u a IH]; intros [|v b] [|w x] L [Lx B] N; cbn [length] in *; try lia; [congruence|].
  pose proof (B 0%nat ltac:(lia)) as B0. cbn [nth] in B0. assert (B' : between a b x) by (split; [lia|]; intros i Hi; exact (B (S i) ltac:(lia))).
  unfold manhattan. cbn [map2 fold_right]. fold (manhattan a x) (manhattan a b). destruct (list_eq_dec Z.eq_dec x b) as [->|N'].
  - assert (w <> v) by congruence. lia.
  - specialize (IH b x ltac:(lia) B' N'). lia.
Qed.
Lemma ray_cells : forall fuel d (o e b : point) r m rc c x, (d = 2 \/ d = 3)%nat -> length o = d -> length e = d -> length b = d ->
  let oc := cell_from_point F32A o b r in well_timed o e b r oc ->
  cast_ray F32A fuel o e b r m = Ret (rc, Some c) ->
  (In x rc <-> passes d o e b r oc x /\ manhattan oc x < manhattan oc c).
Proof.
  intros fuel d o e b r m rc c x Hd Lo Le Lb oc W R. rewrite (passes_ahead d o e b r m) by assumption. fold oc.
  destruct (cast_completed fuel d o e b r m rc c Hd Lo Le Lb R) as (Ec & NI & _ & Hl & BT). fold oc in Hl, BT.
  rewrite cast_unfold in R. destruct (_ || _); [|discriminate R]. fold oc in R. rewrite <- Ec in R. destruct (cell_eqb oc c) eqn:Q.
  { injection R as <-. apply cell_eqb_eq in Q. rewrite <- Q, manhattan_refl. pose proof (manhattan_nonneg oc x). split; [intros []|lia]. }
  apply cell_eqb_neq in Q. assert (N : oc <> cell_from_point F32A e b r) by congruence. pose proof (good_start d o e b r m Hd Lo Le Lb W N) as G. fold oc in G.
  destruct (loop_walk _ _ _ _ _ _ _ R) as (n & -> & _ & E). set (f := fun k => fst (walk (re_step F32A (env_of F32A o e b r m)) (re_t_delta F32A (env_of F32A o e b r m)) k (oc, tm_of F32A o e b r))) in *.
  assert (F : [oc] ++ map f (seq 1 n) = map f (seq 0 (S n))) by reflexivity. rewrite F in *. rewrite map_length, seq_length in Hl.
  assert (Lc : length oc = d) by apply (go_cell _ _ _ _ G). assert (Le' : length c = d) by (rewrite Ec; unfold cell_from_point; now apply map2_len).
  split.
  - intro I. pose proof (BT x I) as B. split.
    + apply in_map_iff in I. destruct I as (k & <- & _). now apply walk_ahead.
    + apply between_nearer; [congruence|assumption|]. intros ->. contradiction.
  - intros [A M]. apply in_map_iff. exists (Z.to_nat (manhattan oc x)). pose proof (manhattan_nonneg oc x). split; [|apply in_seq; lia].
    apply (walk_arrives d); try assumption. cbn [fst]. lia.
Qed.

(** Rays in range are well timed. *)
Lemma range_timed : forall d (o e b : point) r, (d = 2 \/ d = 3)%nat -> length o = d -> length e = d -> length b = d -> ray_range r o e b ->
  let oc := cell_from_point F32A o b r in oc <> cell_from_point F32A e b r -> well_timed o e b r oc.
Proof.
  intros d o e b r Hd Lo Le Lb HR oc N. destruct (range_setup d Hd o e b r Lo Le Lb HR f0 N) as (k & _ & S).
  pose proof (loop_ok_init F32A f32_sig d o e b r f0 Hd Lo Le Lb N) as OK. assert (LT := lo_tm _ _ _ _ _ OK).
  assert (Ld : length (direction o e) = d) by (unfold direction; rewrite map_length; now apply map2_len).
  assert (L1 : length (first_crossings o e b r oc) = d) by (unfold oc; rewrite <- (times_env d) by assumption; exact LT).
  assert (L2 : length (spacings o e r) = d) by (unfold spacings; now rewrite map_length).
  assert (K : forall i, (i < d)%nat -> fltb fninf (nth i (first_crossings o e b r oc) finf) = true /\ fle f0 (nth i (spacings o e r) finf)).
  { intros i Hi. specialize (S i Hi). cbv zeta in S. unfold env, tm0 in S. rewrite (deltas_env d), (times_env d) in S by assumption. fold oc in S. change (T F32A) with f32 in S.
    destruct S as [(_ & _ & -> & ->)|(_ & F1 & _ & _ & _)]; [split; vm_compute; reflexivity|]. split.
    - apply fltb_iff. split; [reflexivity|]. split; [now apply is_finite_not_nan|]. rewrite (ext_finite _ F1). simpl (ext fninf).
      pose proof (B2R_lt_emax (nth i (first_crossings o e b r oc) finf)) as Q. apply Rabs_def2 in Q. lra.
    - unfold spacings. change finf with (spacing r f0) at 1. rewrite map_nth. unfold spacing. destruct (sign_of (nth i (direction o e) f0) =? 0) eqn:Z0; [vm_compute; reflexivity|].
      destruct (dir_fin d Hd o e b r Lo Le Lb HR N i Hi) as [FD _]. rewrite <- (nth_dir d Hd o e b Lo Le Lb i Hi) in FD. rewrite (dir_env d) in FD by assumption.
      set (D := nth i (direction o e) f0) in *. destruct (fabs_fin D FD) as [FA EA].
      assert (D0 : (0 < Rabs (B2R D))%R).
      { apply Rabs_pos_lt. intro Q. revert Z0. unfold sign_of. assert (E1 : feqb D f0 = true) by (apply feqb_iff; repeat split; [now apply is_finite_not_nan|rewrite ext_finite by assumption; exact Q]).
        rewrite E1. destruct (fltb f0 D) eqn:L; [|discriminate]. apply fltb_iff in L. rewrite (ext_finite D FD) in L. simpl (ext f0) in L. lra. }
      pose proof (r_pos o e b r HR) as P. destruct (fdiv_ext r (fabs D) (r_fin o e b r HR) FA ltac:(lra)) as [N1 E1].
      apply fleb_iff. split; [reflexivity|]. split; [exact N1|]. rewrite E1, EA. simpl (ext f0). pose proof bp128_pos. rewrite <- (clamp_id 0) by lra. apply clamp_le. rewrite <- rnd_0. apply rnd_le.
      left. apply Rdiv_lt_0_compat; assumption. }
  unfold well_timed. revert K L1 L2. generalize (first_crossings o e b r oc) (spacings o e r). clear. intros l l'. revert d l'.
  induction l as [|x l IH]; intros d [|y l'] K L1 L2; cbn [length] in *; try lia; constructor.
  - exact (K 0%nat ltac:(lia)).
  - apply (IH (length l)); [|reflexivity|lia]. intros i Hi. exact (K (S i) ltac:(lia)).
Qed.

(** ** Rays that are cut *)
Lemma loop_cut_walk : forall fuel e cur tm acc rc, ray_loop F32A fuel e cur tm acc = Ret (rc, None) ->
  let f k := fst (walk (re_step F32A e) (re_t_delta F32A e) k (cur, tm)) in
  exists n, rc = acc ++ map f (seq 1 n) /\ too_far F32A e (f (S n)) = true /\ f (S n) <> re_end_cell F32A e /\
    (forall k, (1 <= k <= n)%nat -> too_far F32A e (f k) = false).
Proof.
  induction fuel as [|fuel IH]; intros e cur tm acc rc R f; [discriminate R|]. rewrite loop_unfold in R. cbv zeta in R.
  destruct (in_isize _); [|discriminate R]. destruct (cell_eqb _ _) eqn:Q; [discriminate R|]. apply cell_eqb_neq in Q.
  destruct (too_far _ _ _) eqn:T.
  - injection R as <-. exists 0%nat. cbn [seq map]. rewrite app_nil_r. split; [reflexivity|]. split; [exact T|]. split; [exact Q|lia].
  - destruct (IH _ _ _ _ _ R) as (n & -> & T' & Q' & F'). exists (S n). split; [|split; [exact T'|split; [exact Q'|]]].
    + rewrite <- app_assoc. f_equal. cbn [seq map app]. f_equal. rewrite <- (seq_shift n 1), map_map. reflexivity.
    + intros [|[|k]] Hk; [lia|exact T|]. exact (F' (S k) ltac:(lia)).
Qed.
Section Distance.
Variables (d : nat) (st sp : list f32).
Hypothesis Hd : (d = 2 \/ d = 3)%nat.
Let stands (x : cell * list f32) := nth (select_dim F32A (snd x)) (map f32_to_isize st) 0 = 0.
Lemma walk_add : forall n k x, walk st sp (n + k) x = walk st sp k (walk st sp n x).
Proof. induction n as [|n IH]; intros k x; [reflexivity|]. cbn [Nat.add walk]. apply IH. Qed.
Lemma walk_stands : forall n x, good d st sp x -> stands x -> walk st sp n x = x.
Proof.
  induction n as [|n IH]; intros x G S; [reflexivity|]. cbn [walk]. pose proof (stuck_same d st sp Hd x G S) as E. rewrite E. now apply IH.
Qed.
Lemma walk_distance : forall n x, good d st sp x -> (forall k, (k < n)%nat -> ~ stands (walk st sp k x)) -> manhattan (fst x) (fst (walk st sp n x)) = Z.of_nat n.
Proof.
  induction n as [|n IH]; intros x G S; [apply manhattan_refl|]. cbn [walk]. set (y := fst (walk st sp n (move st sp x))).
  assert (G' : good d st sp (move st sp x)) by now apply good_move.
  assert (A : ahead d st sp (move st sp x) y) by now apply walk_ahead.
  assert (M : manhattan (fst (move st sp x)) y = Z.of_nat n) by (apply IH; [assumption|]; intros k Hk; exact (S (Datatypes.S k) ltac:(lia))).
  assert (N : y <> fst x).
  { intro E. pose proof (S 0%nat ltac:(lia)) as NS. cbn [walk] in NS. unfold stands in NS. pose proof (good_select d st sp Hd x G) as Hi. pose proof (proj1 (proj2 A) _ Hi) as A1. pose proof (moved d st sp Hd x G) as MV.
    rewrite E in A1. unfold borders in A1. rewrite MV in A1. destruct (go_unit _ _ _ _ G _ Hi) as [U|[U|(U & _)]]; rewrite U in *; lia. }
  pose proof (manhattan_move d st sp x y Hd G (ahead_back d st sp Hd x y G A) N) as Q. lia.
Qed.
Lemma stands_or_not : forall n x, (exists k, (k < n)%nat /\ stands (walk st sp k x)) \/ (forall k, (k < n)%nat -> ~ stands (walk st sp k x)).
Proof.
  induction n as [|n IH]; intros x; [right; lia|]. destruct (IH x) as [(k & Hk & S)|S]; [left; exists k; split; [lia|exact S]|].
  destruct (Z.eq_dec (nth (select_dim F32A (snd (walk st sp n x))) (map f32_to_isize st) 0) 0) as [E|E]; [left; exists n; split; [lia|exact E]|].
  right. intros k Hk. destruct (Nat.eq_dec k n) as [->|Nk]; [exact E|]. apply S. lia.
Qed.
End Distance.
Lemma ray_cut_cells : forall fuel d (o e b : point) r m rc, (d = 2 \/ d = 3)%nat -> length o = d -> length e = d -> length b = d ->
  let oc := cell_from_point F32A o b r in well_timed o e b r oc ->
  cast_ray F32A fuel o e b r m = Ret (rc, None) ->
  (rc = [oc] /\ beyond o b r m oc) \/
  exists z, passes d o e b r oc z /\ beyond o b r m z /\ z <> cell_from_point F32A e b r /\
    forall x, In x rc <-> passes d o e b r oc x /\ manhattan oc x < manhattan oc z.
Proof.
  intros fuel d o e b r m rc Hd Lo Le Lb oc W R.
  assert (Lc : length oc = d) by (unfold oc, cell_from_point; now apply map2_len).
  rewrite cast_unfold in R. destruct (_ || _); [|discriminate R]. fold oc in R. destruct (cell_eqb oc _) eqn:Q; [discriminate R|]. apply cell_eqb_neq in Q.
  pose proof (good_start d o e b r m Hd Lo Le Lb W Q) as G. fold oc in G.
  destruct (loop_cut_walk _ _ _ _ _ _ R) as (n & En & T & N & F). set (f := fun k => fst (walk (re_step F32A (env_of F32A o e b r m)) (re_t_delta F32A (env_of F32A o e b r m)) k (oc, tm_of F32A o e b r))) in *.
  change (too_far F32A (env_of F32A o e b r m) (f (S n)) = true) in T. change (f (S n) <> re_end_cell F32A (env_of F32A o e b r m)) in N. change (forall k, (1 <= k <= n)%nat -> too_far F32A (env_of F32A o e b r m) (f k) = false) in F.
  assert (E0 : [oc] ++ map f (seq 1 n) = map f (seq 0 (S n))) by reflexivity. rewrite E0 in En.
  assert (Lf : forall k, length (f k) = d) by (intro k; apply (go_cell d _ _ _ (good_walk d _ _ Hd k _ G))).
  destruct (stands_or_not d (re_step F32A (env_of F32A o e b r m)) (re_t_delta F32A (env_of F32A o e b r m)) Hd (S n) (oc, tm_of F32A o e b r)) as [(k & Hk & S0)|NS].
  - left. assert (W1 : forall j, f (k + j)%nat = f k).
    { intro j. unfold f. rewrite walk_add, (walk_stands d); [reflexivity|assumption|now apply good_walk|exact S0]. }
    pose proof (W1 (S n - k)%nat) as W2. replace (k + (S n - k))%nat with (S n) in W2 by lia. rewrite W2 in T.
    destruct k as [|k]; [|rewrite (F (S k) ltac:(lia)) in T; discriminate T].
    destruct n as [|n]; [|pose proof (W1 1%nat) as W3; cbn [Nat.add] in W3; rewrite <- W3, (F 1%nat ltac:(lia)) in T; discriminate T].
    split; [exact En|]. apply (too_far_iff d) in T; auto. apply T.
  - right. exists (f (S n)). split; [rewrite (passes_ahead d o e b r m) by assumption; now apply walk_ahead|].
    split; [apply (too_far_iff d) in T; auto; apply T|]. split; [exact N|].
    pose proof (walk_distance d _ _ Hd (S n) _ G NS) as D. cbn [fst] in D. fold (f (S n)) in D. intro x. rewrite (passes_ahead d o e b r m) by assumption. fold oc. rewrite En, D. split.
    + intro I. apply in_map_iff in I. destruct I as (k & <- & Hk). apply in_seq in Hk. split; [now apply walk_ahead|].
      pose proof (walk_distance d _ _ Hd k _ G) as Dk. cbn [fst] in Dk. fold (f k) in Dk. rewrite Dk; [lia|]. intros j Hj. apply NS. lia.
    + intros [A M]. apply in_map_iff. exists (Z.to_nat (manhattan oc x)). pose proof (manhattan_nonneg oc x). split; [|apply in_seq; lia].
      apply (walk_arrives d); try assumption. cbn [fst]. lia.
Qed.
