(** C34: the ray caster in exact arithmetic visits the cells the segment crosses. *)
From Coq Require Import ZArith List Bool Reals Lra Lia Psatz.
From Flocq Require Import Core.
From Verif Require Import Base F32 Arith Geom RayCaster Spec RayProofs CastProofs.
Open Scope R_scope.

Definition sgn (x : R) : Z := if Req_bool x 0 then 0%Z else if Rlt_bool 0 x then 1%Z else (-1)%Z.
Lemma sgn_cases : forall x, (sgn x = 0%Z /\ x = 0) \/ (sgn x = 1%Z /\ 0 < x) \/ (sgn x = (-1)%Z /\ x < 0).
Proof.
  intro x. unfold sgn. case Req_bool_spec; intro H; [auto|]. case Rlt_bool_spec; intro K; [auto|]. right; right. split; [reflexivity|lra].
Qed.

Definition xle (a b : xreal) : Prop :=
  match a, b with Fin x, Fin y => x <= y | _, Inf => True | Inf, Fin _ => False end.
Lemma xltb_false : forall a b, xltb a b = false -> xle b a.
Proof. intros [x|] [y|]; cbn; try easy. case Rlt_bool_spec; easy. Qed.
Lemma xltb_true : forall a b, xltb a b = true -> xle a b.
Proof. intros [x|] [y|]; cbn; try easy. case Rlt_bool_spec; intros; try easy. lra. Qed.
Lemma xle_trans : forall a b c, xle a b -> xle b c -> xle a c.
Proof. intros [x|] [y|] [z|]; cbn; try easy. lra. Qed.
Lemma xle_refl : forall a, xle a a.
Proof. intros [x|]; cbn; try easy. lra. Qed.

Lemma select_min : forall (t : list xreal) d, length t = d -> (d = 2 \/ d = 3)%nat ->
  forall i, (i < d)%nat -> xle (nth (select_dim RealA t) t Inf) (nth i t Inf).
Proof.
  intros t d L Hd i Hi. unfold select_dim. cbn [tltb tinf RealA T]. change (T RealA) with xreal. rewrite L.
  destruct Hd as [-> | ->]; cbn [Nat.eqb].
  - destruct (xltb (nth 0 t Inf) (nth 1 t Inf)) eqn:E; [apply xltb_true in E|apply xltb_false in E];
    destruct i as [|[|i]]; try lia; auto using xle_refl.
  - destruct (xltb (nth 0 t Inf) (nth 1 t Inf)) eqn:E; [apply xltb_true in E|apply xltb_false in E].
    + destruct (xltb (nth 0 t Inf) (nth 2 t Inf)) eqn:E2; [apply xltb_true in E2|apply xltb_false in E2];
      destruct i as [|[|[|i]]]; try lia; eauto using xle_refl, xle_trans.
    + destruct (xltb (nth 1 t Inf) (nth 2 t Inf)) eqn:E2; [apply xltb_true in E2|apply xltb_false in E2];
      destruct i as [|[|[|i]]]; try lia; eauto using xle_refl, xle_trans.
Qed.

Lemma signum_real : forall x, signum1 RealA (Fin x) = Fin (IZR (sgn x)).
Proof.
  intro x. unfold signum1, sgn. cbn [teqb tltb tzero tone tmone RealA xeqb xltb].
  case (Req_bool x 0); [reflexivity|]. case (Rlt_bool 0 x); reflexivity.
Qed.

Section Ideal.
Context (d : nat) (Hd : (d = 2 \/ d = 3)%nat).
Context (o e b : list R) (r : R) (Lo : length o = d) (Le : length e = d) (Lb : length b = d) (Hr : 0 < r).
Notation O i := (nth i o 0).
Notation E i := (nth i e 0).
Notation B i := (nth i b 0).
Let oc := nearest_cell b r o.
Let ec := nearest_cell b r e.
Let FO : list xreal := map Fin o.
Let FE : list xreal := map Fin e.
Let FB : list xreal := map Fin b.

Lemma nth_map2R : forall {X Y Z} (f : X -> Y -> Z) l m x y z i, (i < length l)%nat -> length l = length m ->
  nth i (map2 f l m) z = f (nth i l x) (nth i m y).
Proof.
  intros X Y Z f. induction l as [|u l IH]; intros [|v m] x y z i Hi L; cbn in *; try lia.
  destruct i; [reflexivity|]. apply IH; lia.
Qed.
Lemma map2_map : forall {X Y X' Y' Z} (f : X' -> Y' -> Z) (g : X -> X') (h : Y -> Y') l m,
  map2 f (map g l) (map h m) = map2 (fun x y => f (g x) (h y)) l m.
Proof. intros X Y X' Y' Z f g h. induction l; intros [|]; cbn; auto. f_equal. apply IHl. Qed.

Lemma cfp_real : forall p : list R, cell_from_point RealA (map Fin p) FB (Fin r) = nearest_cell b r p.
Proof.
  intro p. unfold cell_from_point, FB, nearest_cell. rewrite map2_map.
  revert p. clear. induction b as [|y b' IH]; intros [|x p]; cbn; auto.
  rewrite Ztrunc_IZR. f_equal. apply IH.
Qed.

Lemma near_closed : forall p, length p = d -> in_closed_cell b r (nearest_cell b r p) p.
Proof.
  intros p Lp i Hi. unfold nearest_cell in *. rewrite (map2_len _ d) in Hi by assumption.
  rewrite (nth_map2R _ _ _ 0 0) by lia.
  set (x := (nth i p 0 - nth i b 0) / r). pose proof (Znearest_half (Z.leb 0) x) as N.
  replace (nth i p 0 - (nth i b 0 + IZR (ZnearestA x) * r)) with ((x - IZR (ZnearestA x)) * r)
    by (unfold x; field; lra).
  rewrite Rabs_mult, (Rabs_pos_eq r) by lra. change (ZnearestA x) with (Znearest (Z.leb 0) x). nra.
Qed.

Lemma nth_seg : forall t i, (i < d)%nat -> nth i (seg o e t) 0 = O i + t * (E i - O i).
Proof. intros t i Hi. unfold seg. rewrite (nth_map2R _ _ _ 0 0) by lia. reflexivity. Qed.

Lemma len_oc : length oc = d. Proof. unfold oc, nearest_cell. now apply map2_len. Qed.
Lemma len_ec : length ec = d. Proof. unfold ec, nearest_cell. now apply map2_len. Qed.

(** convexity along the segment *)
Lemma cell_convex : forall c t1 t2 t, length c = d -> t1 <= t <= t2 ->
  in_closed_cell b r c (seg o e t1) -> in_closed_cell b r c (seg o e t2) -> in_closed_cell b r c (seg o e t).
Proof.
  intros c t1 t2 t Lc Ht H1 H2 i Hi. specialize (H1 i Hi). specialize (H2 i Hi). rewrite Lc in Hi.
  rewrite nth_seg in * by assumption. apply Rabs_le_inv in H1, H2. apply Rabs_le.
  destruct (Rle_or_lt 0 (E i - O i)); nra.
Qed.
Lemma open_closed_eq : forall x y p, length x = d -> length y = d ->
  in_closed_cell b r x p -> in_open_cell b r y p -> x = y.
Proof.
  intros x y p Lx Ly Hx Hy. apply nth_ext_Z; [congruence|]. intros i Hi.
  specialize (Hx i Hi). specialize (Hy i ltac:(lia)). apply Rabs_le_inv in Hx. apply Rabs_lt_inv in Hy.
  set (u := nth i x 0%Z) in *. set (v := nth i y 0%Z) in *.
  assert (IZR u - IZR v < 1) by nra. assert (IZR v - IZR u < 1) by nra.
  rewrite <- minus_IZR in *. apply lt_IZR in H, H0. lia.
Qed.

(** length of the ray *)
Lemma norm_real : oc <> ec -> exists L, 0 < L /\ norm RealA (vsub RealA FE FO) = Fin L.
Proof.
  intro N.
  assert (S : exists i, (i < d)%nat /\ E i - O i <> 0).
  { destruct (list_eq_dec Req_EM_T o e) as [Q|Q].
    { exfalso. apply N. unfold oc, ec. now rewrite Q. }
    clear - Q Lo Le. revert o e Lo Le Q. induction d as [|k IH]; intros [|x o] [|y e] Lo Le Q; try discriminate; [now elim Q|].
    destruct (Req_dec (y - x) 0) as [Z|Z].
    - destruct (IH o e) as (i & Hi & D); try (cbn in *; lia). { intro Q'. apply Q. f_equal; [lra|assumption]. }
      exists (S i). split; [lia|exact D].
    - exists 0%nat. split; [lia|exact Z]. }
  destruct S as (i & Hi & Ni).
  destruct Hd as [D|D]; rewrite D in *.
  - destruct o as [|o1 [|o2 [|]]]; try discriminate. destruct e as [|e1 [|e2 [|]]]; try discriminate.
    eexists. split; [|reflexivity]. apply sqrt_lt_R0.
    destruct i as [|[|i]]; cbn in Ni; try lia; pose proof (Rsqr_pos_lt _ Ni) as P; unfold Rsqr in P;
    pose proof (Rle_0_sqr (e1 - o1)); pose proof (Rle_0_sqr (e2 - o2)); unfold Rsqr in *; lra.
  - destruct o as [|o1 [|o2 [|o3 [|]]]]; try discriminate. destruct e as [|e1 [|e2 [|e3 [|]]]]; try discriminate.
    eexists. split; [|reflexivity]. apply sqrt_lt_R0.
    destruct i as [|[|[|i]]]; cbn in Ni; try lia; pose proof (Rsqr_pos_lt _ Ni) as P; unfold Rsqr in P;
    pose proof (Rle_0_sqr (e1 - o1)); pose proof (Rle_0_sqr (e2 - o2)); pose proof (Rle_0_sqr (e3 - o3)); unfold Rsqr in *; lra.
Qed.

Notation S i := (sgn (E i - O i)).
(** The parameter (times the length) at which the ray leaves coordinate x. *)
Definition exit_at (L : R) (i : nat) (x : Z) : R :=
  L * ((B i + (IZR x + IZR (S i) / 2) * r - O i) / (E i - O i)).

Lemma Sdiff : forall i, (S i = 0%Z /\ E i = O i) \/ (S i = 1%Z /\ O i < E i) \/ (S i = (-1)%Z /\ E i < O i).
Proof. intro i. destruct (sgn_cases (E i - O i)) as [[A1 A2]|[[A1 A2]|[A1 A2]]]; rewrite A1; [left|right; left|right; right]; split; auto; lra. Qed.

Lemma sgn_scale : forall x L, 0 < L -> sgn (x / L) = sgn x.
Proof.
  intros x L H. assert (I := Rinv_0_lt_compat _ H). unfold Rdiv.
  destruct (sgn_cases x) as [[A1 A2]|[[A1 A2]|[A1 A2]]], (sgn_cases (x * / L)) as [[B1 B2]|[[B1 B2]|[B1 B2]]];
  rewrite A1, B1; try reflexivity; exfalso; try nra.
Qed.

Lemma setup : forall m, oc <> ec -> m <= 0 ->
  let env := env_of RealA FO FE FB (Fin r) (Fin m) in
  exists L, 0 < L /\ length (re_step RealA env) = d /\ length (tm_of RealA FO FE FB (Fin r)) = d /\
  re_end_cell RealA env = ec /\ (forall c, too_far RealA env c = false) /\
  forall i, (i < d)%nat ->
    t_to_isize RealA (nth i (re_step RealA env) (tzero RealA)) = S i /\
    (S i = 0%Z -> nth i (tm_of RealA FO FE FB (Fin r)) Inf = Inf /\ nth i (re_t_delta RealA env) Inf = Inf) /\
    (S i <> 0%Z -> nth i (tm_of RealA FO FE FB (Fin r)) Inf = Fin (exit_at L i (nth i oc 0%Z)) /\
       nth i (re_t_delta RealA env) Inf = Fin (L * (r / Rabs (E i - O i)))).
Proof.
  intros m N Hm env. destruct (norm_real N) as (L & HL & EN). exists L. split; [assumption|].
  set (dir := map2 (fun x y => (y - x) / L) o e).
  assert (ED : vdivs RealA (vsub RealA FE FO) (Fin L) = map Fin dir).
  { unfold vdivs, vsub, FE, FO, dir. clear. revert e. induction o as [|x o' IH]; intros [|y e']; cbn; auto. f_equal. apply IH. }
  assert (Ld : length dir = d) by (now apply map2_len).
  assert (Lf : forall l : list R, length l = d -> @length xreal (map Fin l) = d) by (intros; now rewrite map_length).
  assert (Ls : @length xreal (signum RealA (map Fin dir)) = d) by (unfold signum; rewrite map_length; now apply Lf).
  unfold env, env_of, tm_of. rewrite EN, ED. cbn [re_step re_t_delta re_end_cell].
  split; [exact Ls|]. 
  assert (Lc : length (cell_from_point RealA FO FB (Fin r)) = d).
  { unfold FO. rewrite cfp_real. exact len_oc. }
  split. { exact (length_init_t_max RealA d _ _ _ _ _ _ Ls (Lf b Lb) (Lf o Lo) (Lf dir Ld) Lc). }
  split. { unfold FE. apply cfp_real. }
  split. { intro c. unfold too_far. cbn [re_max_len tltb tzero RealA xltb]. now rewrite Rlt_bool_false by lra. }
  intros i Hi.
  assert (NF : forall l i, (i < length l)%nat -> nth i (map Fin l) (tzero RealA) = Fin (nth i l 0)).
  { intros l j Hj. change (tzero RealA) with (Fin 0). apply map_nth. }
  assert (ES : nth i (signum RealA (map Fin dir)) (tzero RealA) = Fin (IZR (S i))).
  { rewrite nth_signum by (change (T RealA) with xreal; rewrite Lf; lia). rewrite NF by lia. unfold dir.
    rewrite (nth_map2R _ _ _ 0 0) by lia. rewrite signum_real. now rewrite sgn_scale. }
  rewrite ES. split. { cbn [t_to_isize RealA]. apply Ztrunc_IZR. }
  pose proof (nth_init_t_max RealA d (signum RealA (map Fin dir)) FB FO (map Fin dir) (Fin r) (cell_from_point RealA FO FB (Fin r)) i
    Ls (Lf b Lb) (Lf o Lo) (Lf dir Ld) Lc Hi) as TM.
  pose proof (nth_init_t_delta RealA d (signum RealA (map Fin dir)) (map Fin dir) (Fin r) i Ls (Lf dir Ld) Hi) as TD.
  rewrite ES in TM, TD. 
  assert (NB : @nth (T RealA) i FB (tzero RealA) = Fin (B i)) by (apply NF; lia).
  assert (NO : @nth (T RealA) i FO (tzero RealA) = Fin (O i)) by (apply NF; lia).
  assert (ND : @nth (T RealA) i (map Fin dir) (tzero RealA) = Fin (nth i dir 0)) by (apply NF; lia).
  rewrite NB, NO, ND in TM. rewrite ND in TD.
  assert (EDi : nth i dir 0 = (E i - O i) / L) by (unfold dir; rewrite (nth_map2R _ _ _ 0 0) by lia; reflexivity).
  change (tinf RealA) with Inf in TM, TD. rewrite TM, TD, EDi. unfold FO. rewrite cfp_real. fold oc.
  unfold axis_t_max, axis_t_delta. cbn [teqb tzero tinf RealA xeqb].
  split.
  - intros ->. rewrite Req_bool_true by reflexivity. auto.
  - intro NZ. rewrite Req_bool_false by (intro Z; apply NZ; apply eq_IZR; exact Z).
    assert (DN : E i - O i <> 0). { destruct (Sdiff i) as [[A1 A2]|[[A1 A2]|[A1 A2]]]; [contradiction|lra|lra]. }
    unfold point_coord_from_cell_coord. cbn [tadd tmul tdiv tsub tabs thalf t_of_isize RealA xlift2 xlift1].
    split; f_equal.
    + unfold exit_at. field. split; [assumption|lra].
    + unfold Rdiv. rewrite Rabs_mult, (Rabs_pos_eq (/ L)) by (left; now apply Rinv_0_lt_compat).
      field. split; [|lra]. now apply Rabs_no_R0.
Qed.

Context (good_end : ends_inside b r o e).
Context (oc_isize : cells_in_isize oc) (ec_isize : cells_in_isize ec).

Lemma ec_closed : in_closed_cell b r ec (seg o e 1).
Proof.
  intros i Hi. rewrite len_ec in Hi. rewrite nth_seg by assumption.
  replace (O i + 1 * (E i - O i)) with (E i) by ring. apply near_closed; [assumption|]. fold ec. now rewrite len_ec.
Qed.
Lemma oc_closed : in_closed_cell b r oc (seg o e 0).
Proof.
  intros i Hi. rewrite len_oc in Hi. rewrite nth_seg by assumption.
  replace (O i + 0 * (E i - O i)) with (O i) by ring. apply near_closed; [assumption|]. fold oc. now rewrite len_oc.
Qed.

Lemma nearest_mono : forall i, (i < d)%nat ->
  (S i = 0%Z -> nth i oc 0%Z = nth i ec 0%Z) /\ (S i = 1%Z -> (nth i oc 0 <= nth i ec 0)%Z) /\
  (S i = (-1)%Z -> (nth i ec 0 <= nth i oc 0)%Z).
Proof.
  intros i Hi. unfold oc, ec, nearest_cell. rewrite !(nth_map2R _ _ _ 0 0) by lia.
  assert (IP := Rinv_0_lt_compat _ Hr).
  destruct (Sdiff i) as [[A1 A2]|[[A1 A2]|[A1 A2]]]; rewrite A1; repeat split; try discriminate; intros _.
  - now rewrite A2.
  - apply (@Zrnd_le _ (valid_rnd_NA)). unfold Rdiv. nra.
  - apply (@Zrnd_le _ (valid_rnd_NA)). unfold Rdiv. nra.
Qed.

Section Loop.
Context (env : ray_env RealA) (L : R) (HL : 0 < L).
Context (Ls : length (re_step RealA env) = d) (Ee : re_end_cell RealA env = ec)
  (Far : forall c, too_far RealA env c = false).
Context (Hstep : forall i, (i < d)%nat -> t_to_isize RealA (nth i (re_step RealA env) (tzero RealA)) = S i).
Context (Hdelta0 : forall i, (i < d)%nat -> S i = 0%Z -> nth i (re_t_delta RealA env) Inf = Inf).
Context (Hdelta : forall i, (i < d)%nat -> S i <> 0%Z ->
  nth i (re_t_delta RealA env) Inf = Fin (L * (r / Rabs (E i - O i)))).

Record J (cur : cell) (tm : list xreal) (t : R) : Prop := {
  j_len : length cur = d;
  j_tlen : length tm = d;
  j_time : 0 <= t <= 1;
  j_still : forall i, (i < d)%nat -> S i = 0%Z -> nth i tm Inf = Inf;
  j_move : forall i, (i < d)%nat -> S i <> 0%Z -> nth i tm Inf = Fin (exit_at L i (nth i cur 0%Z));
  j_cell : in_closed_cell b r cur (seg o e t);
  j_eq : forall i, (i < d)%nat -> S i = 0%Z -> nth i cur 0%Z = nth i ec 0%Z;
  j_le : forall i, (i < d)%nat -> S i = 1%Z -> (nth i oc 0 <= nth i cur 0 <= nth i ec 0)%Z;
  j_ge : forall i, (i < d)%nat -> S i = (-1)%Z -> (nth i ec 0 <= nth i cur 0 <= nth i oc 0)%Z
}.

(** The time at which axis i is left. *)
Definition tau (i : nat) (x : Z) : R := (B i + (IZR x + IZR (S i) / 2) * r - O i) / (E i - O i).
Lemma tau_eq : forall i x, S i <> 0%Z -> tau i x * (E i - O i) = B i + (IZR x + IZR (S i) / 2) * r - O i.
Proof.
  intros i x H. unfold tau. field. destruct (Sdiff i) as [[A1 A2]|[[A1 A2]|[A1 A2]]]; [contradiction|lra|lra].
Qed.
Lemma tau_unfinished : forall cur tm t i, J cur tm t -> (i < d)%nat -> nth i cur 0%Z <> nth i ec 0%Z ->
  S i <> 0%Z /\ tau i (nth i cur 0%Z) <= 1.
Proof.
  intros cur tm t i H Hi N. pose proof (ec_closed i) as C. rewrite len_ec in C. specialize (C Hi).
  rewrite nth_seg in C by assumption. apply Rabs_le_inv in C.
  pose proof (tau_eq i (nth i cur 0%Z)) as Q.
  destruct (Sdiff i) as [[A1 A2]|[[A1 A2]|[A1 A2]]]; rewrite A1 in *.
  - elim N. now apply H.
  - split; [discriminate|]. specialize (Q ltac:(discriminate)). destruct (j_le _ _ _ H i Hi A1) as [_ Y].
    assert (Y' : (nth i cur 0 + 1 <= nth i ec 0)%Z) by lia. apply IZR_le in Y'. rewrite plus_IZR in Y'. nra.
  - split; [discriminate|]. specialize (Q ltac:(discriminate)). destruct (j_ge _ _ _ H i Hi A1) as [Y _].
    assert (Y' : (nth i ec 0 + 1 <= nth i cur 0)%Z) by lia. apply IZR_le in Y'. rewrite plus_IZR in Y'. nra.
Qed.
Lemma tau_finished : forall i, (i < d)%nat -> S i <> 0%Z -> 1 < tau i (nth i ec 0%Z).
Proof.
  intros i Hi N. pose proof (ec_closed i) as C. rewrite len_ec in C. specialize (C Hi).
  rewrite nth_seg in C by assumption. apply Rabs_le_inv in C.
  pose proof (tau_eq i (nth i ec 0%Z) N) as Q.
  destruct (good_end i ltac:(lia)) as [G1 G2]. fold ec in G1, G2.
  destruct (Sdiff i) as [[A1 A2]|[[A1 A2]|[A1 A2]]]; rewrite A1 in *; [contradiction| |].
  - specialize (G1 A2). assert (E i < B i + (IZR (nth i ec 0%Z) + / 2) * r) by lra. nra.
  - specialize (G2 A2). assert (B i + (IZR (nth i ec 0%Z) - / 2) * r < E i) by lra. nra.
Qed.

Lemma choice : forall cur tm t, J cur tm t -> cur <> ec ->
  let k := select_dim RealA tm in
  (k < d)%nat /\ S k <> 0%Z /\ nth k cur 0%Z <> nth k ec 0%Z /\
  t <= tau k (nth k cur 0%Z) <= 1 /\
  forall i, (i < d)%nat -> S i <> 0%Z -> tau k (nth k cur 0%Z) <= tau i (nth i cur 0%Z).
Proof.
  intros cur tm t H N k.
  assert (Hk : (k < d)%nat).
  { unfold k. rewrite <- (j_tlen _ _ _ H) at 1. apply select_dim_lt. change (T RealA) with xreal. rewrite (j_tlen _ _ _ H). exact Hd. }
  assert (U : exists i, (i < d)%nat /\ nth i cur 0%Z <> nth i ec 0%Z).
  { destruct (Forall_Exists_dec (fun i => nth i cur 0%Z = nth i ec 0%Z) (fun i => Z.eq_dec _ _) (seq 0 d)) as [F|X].
    - elim N. apply nth_ext_Z. { rewrite (j_len _ _ _ H). symmetry. exact len_ec. }
      intros i Hi. rewrite (j_len _ _ _ H) in Hi. rewrite Forall_forall in F. apply F. apply in_seq. lia.
    - apply Exists_exists in X. destruct X as (i & I & D). apply in_seq in I. exists i. split; [lia|exact D]. }
  destruct U as (i & Hi & D). destruct (tau_unfinished _ _ _ _ H Hi D) as [Si Ti].
  pose proof (select_min tm d (j_tlen _ _ _ H) Hd) as M. fold k in M.
  assert (Sk : S k <> 0%Z).
  { intro Z. pose proof (M i Hi) as Mi. rewrite (j_still _ _ _ H k Hk Z), (j_move _ _ _ H i Hi Si) in Mi. exact Mi. }
  assert (Min : forall j, (j < d)%nat -> S j <> 0%Z -> tau k (nth k cur 0%Z) <= tau j (nth j cur 0%Z)).
  { intros j Hj Sj. pose proof (M j Hj) as Mj. rewrite (j_move _ _ _ H k Hk Sk), (j_move _ _ _ H j Hj Sj) in Mj.
    cbn in Mj. unfold exit_at in Mj. fold (tau k (nth k cur 0%Z)) in Mj. fold (tau j (nth j cur 0%Z)) in Mj.
    exact (Rmult_le_reg_l _ _ _ HL Mj). }
  assert (Tk : tau k (nth k cur 0%Z) <= 1) by (pose proof (Min i Hi Si); lra).
  repeat split; auto.
  - intro Z. pose proof (tau_finished k Hk Sk) as F. rewrite <- Z in F. lra.
  - pose proof (j_cell _ _ _ H k) as C. rewrite (j_len _ _ _ H) in C. specialize (C Hk). rewrite nth_seg in C by assumption.
    apply Rabs_le_inv in C. pose proof (tau_eq k (nth k cur 0%Z) Sk) as Q.
    destruct (Sdiff k) as [[A1 A2]|[[A1 A2]|[A1 A2]]]; rewrite A1 in *; [contradiction| |]; nra.
Qed.

(** One step of the loop keeps the invariant, at the time the border is crossed,
    and until then the segment is in the old cell. *)
Lemma step_J : forall cur tm t, J cur tm t -> cur <> ec ->
  let k := select_dim RealA tm in let t' := tau k (nth k cur 0%Z) in
  J (next_cell RealA env cur tm) (next_tm RealA env tm) t' /\ in_closed_cell b r cur (seg o e t') /\
  manhattan (next_cell RealA env cur tm) ec = (manhattan cur ec - 1)%Z /\
  in_isize (nth k cur 0%Z + t_to_isize RealA (nth k (re_step RealA env) (tzero RealA))) = true.
Proof.
  intros cur tm t H N k t'. destruct (choice _ _ _ H N) as (Hk & Sk & Dk & [T1 T2] & Min). fold k in Hk, Sk, Dk, T1, T2, Min. fold t' in T1, T2, Min.
  pose proof (j_len _ _ _ H) as Lc. pose proof (j_tlen _ _ _ H) as Lt. pose proof (j_time _ _ _ H) as Tt.
  assert (Q := tau_eq k (nth k cur 0%Z) Sk). fold t' in Q.
  assert (OLD : in_closed_cell b r cur (seg o e t')).
  { intros i Hi. pose proof (j_cell _ _ _ H i Hi) as C. rewrite Lc in Hi. rewrite nth_seg in * by assumption.
    apply Rabs_le_inv in C. apply Rabs_le.
    destruct (Z.eq_dec (S i) 0) as [Z|Z].
    { destruct (Sdiff i) as [[A1 A2]|[[A1 A2]|[A1 A2]]]; try congruence. rewrite A2 in *. lra. }
    pose proof (Min i Hi Z) as Mi. pose proof (tau_eq i (nth i cur 0%Z) Z) as Qi.
    destruct (Sdiff i) as [[A1 A2]|[[A1 A2]|[A1 A2]]]; rewrite A1 in *; [contradiction| |]; nra. }
  assert (NC : forall i, nth i (next_cell RealA env cur tm) 0%Z =
     if Nat.eq_dec k i then (nth k cur 0 + S k)%Z else nth i cur 0%Z).
  { intro i. unfold next_cell. fold k. rewrite Hstep by assumption. destruct (Nat.eq_dec k i) as [->|Ne].
    - apply nth_upd_same. lia. - now apply nth_upd_other. }
  split; [|split; [exact OLD|split]].
  - constructor.
    + unfold next_cell. now rewrite upd_length.
    + unfold next_tm. now rewrite upd_length.
    + lra.
    + intros i Hi Z. unfold next_tm. fold k. rewrite nth_upd_other by congruence. now apply H.
    + intros i Hi Z. rewrite NC. unfold next_tm. fold k. destruct (Nat.eq_dec k i) as [<-|Ne].
      * rewrite nth_upd_same by lia. 
        assert (X1 : @nth (T RealA) k tm (tinf RealA) = Fin (exit_at L k (nth k cur 0%Z))) by exact (j_move _ _ _ H k Hk Sk).
        assert (X2 : @nth (T RealA) k (re_t_delta RealA env) (tinf RealA) = Fin (L * (r / Rabs (E k - O k)))) by exact (Hdelta k Hk Sk).
        rewrite X1, X2. cbn [tadd RealA xlift2]. f_equal.
        unfold exit_at. rewrite plus_IZR.
        destruct (Sdiff k) as [[A1 A2]|[[A1 A2]|[A1 A2]]]; rewrite A1 in *; [contradiction| |].
        -- rewrite (Rabs_pos_eq (E k - O k)) by lra. field. lra.
        -- rewrite (Rabs_left (E k - O k)) by lra. field. lra.
      * rewrite nth_upd_other by assumption. now apply H.
    + intros i Hi. unfold next_cell in Hi. rewrite upd_length, Lc in Hi. rewrite NC.
      destruct (Nat.eq_dec k i) as [<-|Ne].
      * rewrite nth_seg by assumption. rewrite plus_IZR. apply Rabs_le.
        destruct (Sdiff k) as [[A1 A2]|[[A1 A2]|[A1 A2]]]; rewrite A1 in *; [contradiction| |]; nra.
      * apply OLD. lia.
    + intros i Hi Z. rewrite NC. destruct (Nat.eq_dec k i) as [<-|Ne]; [contradiction|]. now apply H.
    + intros i Hi Z. rewrite NC. pose proof (j_le _ _ _ H i Hi Z). destruct (Nat.eq_dec k i) as [<-|Ne]; lia.
    + intros i Hi Z. rewrite NC. pose proof (j_ge _ _ _ H i Hi Z). destruct (Nat.eq_dec k i) as [<-|Ne]; lia.
  - unfold next_cell. fold k. rewrite Hstep by assumption.
    rewrite manhattan_upd by (rewrite ?len_ec; lia).
    destruct (Sdiff k) as [[A1 A2]|[[A1 A2]|[A1 A2]]]; rewrite A1 in *; [contradiction| |].
    + pose proof (j_le _ _ _ H k Hk A1). lia.
    + pose proof (j_ge _ _ _ H k Hk A1). lia.
  - rewrite Hstep by assumption. unfold in_isize. apply andb_true_iff. rewrite !Z.leb_le.
    assert (IO : (isize_min <= nth k oc 0 <= isize_max)%Z).
    { unfold cells_in_isize in oc_isize. rewrite Forall_forall in oc_isize. apply oc_isize. apply nth_In. now rewrite len_oc. }
    assert (IE : (isize_min <= nth k ec 0 <= isize_max)%Z).
    { unfold cells_in_isize in ec_isize. rewrite Forall_forall in ec_isize. apply ec_isize. apply nth_In. now rewrite len_ec. }
    destruct (Sdiff k) as [[A1 A2]|[[A1 A2]|[A1 A2]]]; rewrite A1 in *; [contradiction| |].
    + pose proof (j_le _ _ _ H k Hk A1). lia.
    + pose proof (j_ge _ _ _ H k Hk A1). lia.
Qed.

Lemma ideal_loop : forall fuel cur tm t acc, J cur tm t -> cur <> ec -> (manhattan cur ec <= Z.of_nat fuel)%Z ->
  exists path, ray_loop RealA fuel env cur tm acc = Ret (acc ++ path, Some ec) /\
    (Z.of_nat (length path) = manhattan cur ec - 1)%Z /\
    (forall x, In x (path ++ [ec]) -> exists u, 0 <= u <= 1 /\ in_closed_cell b r x (seg o e u)) /\
    (forall u y, length y = d -> t <= u <= 1 -> in_open_cell b r y (seg o e u) -> In y (cur :: path ++ [ec])).
Proof.
  induction fuel as [|fuel IH]; intros cur tm t acc H N F.
  { exfalso. apply N. apply manhattan_zero. { rewrite (j_len _ _ _ H). symmetry. exact len_ec. }
    pose proof (manhattan_nonneg cur ec). lia. }
  rewrite loop_unfold. cbv zeta. destruct (step_J _ _ _ H N) as (H' & OLD & M & I).
  set (k := select_dim RealA tm) in *. set (t' := tau k (nth k cur 0%Z)) in *. rewrite I.
  assert (Tt' := j_time _ _ _ H'). pose proof (j_len _ _ _ H) as Lc.
  assert (FIRST : forall u y, length y = d -> t <= u <= t' -> in_open_cell b r y (seg o e u) -> y = cur).
  { intros u y Ly Hu Oy. symmetry. refine (open_closed_eq cur y (seg o e u) Lc Ly _ Oy).
    exact (cell_convex cur t t' u Lc Hu (j_cell _ _ _ H) OLD). }
  rewrite Ee. destruct (cell_eqb _ ec) eqn:Q.
  - apply cell_eqb_eq in Q. exists []. rewrite app_nil_r. split; [reflexivity|]. split.
    { rewrite Q, manhattan_refl in M. cbn [length]. lia. }
    split.
    + intros x [<-|[]]. exists t'. split; [assumption|]. rewrite <- Q. exact (j_cell _ _ _ H').
    + intros u y Ly Hu Oy. destruct (Rle_or_lt u t') as [U|U].
      * left. symmetry. apply (FIRST u); auto. lra.
      * right. left. refine (open_closed_eq ec y (seg o e u) len_ec Ly _ Oy).
        apply (cell_convex ec t' 1); [exact len_ec|lra| |exact ec_closed]. rewrite <- Q. exact (j_cell _ _ _ H').
  - apply cell_eqb_neq in Q. rewrite Far.
    destruct (IH _ _ _ (acc ++ [next_cell RealA env cur tm]) H' Q ltac:(lia)) as (path & R1 & R2 & R3 & R4).
    exists (next_cell RealA env cur tm :: path). rewrite R1. split; [now rewrite <- app_assoc|]. split.
    { cbn [length]. lia. }
    split.
    + intros x [<-|Hx]; [|now apply R3]. exists t'. split; [assumption|]. exact (j_cell _ _ _ H').
    + intros u y Ly Hu Oy. destruct (Rle_or_lt u t') as [U|U].
      * left. symmetry. apply (FIRST u); auto. lra.
      * right. apply (R4 u); auto. lra.
Qed.

(** Where each cell of the path is. *)
Lemma J_between : forall cur tm t, J cur tm t -> between oc ec cur.
Proof.
  intros cur tm t H. split; [rewrite (j_len _ _ _ H), len_oc; reflexivity|]. intros i Hi. rewrite len_oc in Hi.
  destruct (Sdiff i) as [[A1 A2]|[[A1 A2]|[A1 A2]]].
  - rewrite (j_eq _ _ _ H i Hi A1). lia.
  - pose proof (j_le _ _ _ H i Hi A1). lia.
  - pose proof (j_ge _ _ _ H i Hi A1). lia.
Qed.
Definition placed (n : Z) (x : cell) : Prop :=
  between oc ec x /\ manhattan x ec = n /\ exists u, 0 <= u <= 1 /\ in_closed_cell b r x (seg o e u).
Lemma ideal_places : forall fuel cur tm t acc, J cur tm t -> cur <> ec -> (manhattan cur ec <= Z.of_nat fuel)%Z ->
  exists path, ray_loop RealA fuel env cur tm acc = Ret (acc ++ path, Some ec) /\ (Z.of_nat (length path) = manhattan cur ec - 1)%Z /\
    forall k x, nth_error (path ++ [ec]) k = Some x -> placed (manhattan cur ec - 1 - Z.of_nat k) x.
Proof.
  induction fuel as [|fuel IH]; intros cur tm t acc H N F.
  { exfalso. apply N. apply manhattan_zero. { rewrite (j_len _ _ _ H). symmetry. exact len_ec. }
    pose proof (manhattan_nonneg cur ec). lia. }
  rewrite loop_unfold. cbv zeta. destruct (step_J _ _ _ H N) as (H' & _ & M & I).
  set (k := select_dim RealA tm) in *. set (t' := tau k (nth k cur 0%Z)) in *. rewrite I.
  assert (P : placed (manhattan cur ec - 1) (next_cell RealA env cur tm)).
  { split; [exact (J_between _ _ _ H')|]. split; [exact M|]. exists t'. split; [exact (j_time _ _ _ H')|exact (j_cell _ _ _ H')]. }
  rewrite Ee. destruct (cell_eqb _ ec) eqn:Q.
  - apply cell_eqb_eq in Q. exists []. rewrite app_nil_r. split; [reflexivity|]. split.
    { rewrite Q, manhattan_refl in M. cbn [length]. lia. }
    rewrite Q in P. intros [|[|n]] x X; cbn in X; try discriminate X. injection X as <-. now rewrite Z.sub_0_r.
  - apply cell_eqb_neq in Q. rewrite Far.
    destruct (IH _ _ _ (acc ++ [next_cell RealA env cur tm]) H' Q ltac:(lia)) as (path & R1 & R2 & R3).
    exists (next_cell RealA env cur tm :: path). rewrite R1. split; [now rewrite <- app_assoc|]. split; [cbn [length]; lia|].
    intros [|n] x X; cbn [nth_error app] in X.
    + injection X as <-. now rewrite Z.sub_0_r.
    + apply R3 in X. rewrite M in X. replace (manhattan cur ec - 1 - Z.of_nat (Datatypes.S n))%Z with (manhattan cur ec - 1 - 1 - Z.of_nat n)%Z by lia. exact X.
Qed.
End Loop.

Lemma ideal_cast : forall fuel m, m <= 0 -> (manhattan oc ec <= Z.of_nat fuel)%Z ->
  exists path, cast_ray RealA fuel FO FE FB (Fin r) (Fin m) = Ret (path, Some ec) /\
    Z.of_nat (length path) = manhattan oc ec /\
    (forall x, In x (path ++ [ec]) -> exists u, 0 <= u <= 1 /\ in_closed_cell b r x (seg o e u)) /\
    (forall u y, length y = d -> 0 <= u <= 1 -> in_open_cell b r y (seg o e u) -> In y (path ++ [ec])).
Proof.
  intros fuel m Hm F. rewrite cast_unfold. change (T RealA) with xreal.
  assert (Lf : @length xreal FO = d) by (unfold FO; now rewrite map_length). rewrite Lf.
  replace (Nat.eqb d 2 || Nat.eqb d 3)%bool with true by (destruct Hd as [-> | ->]; reflexivity).
  unfold FO at 1, FE at 1. rewrite !cfp_real. fold oc ec. destruct (cell_eqb oc ec) eqn:Q.
  - apply cell_eqb_eq in Q. exists []. unfold FE. rewrite cfp_real. fold ec. split; [reflexivity|]. split.
    { rewrite Q, manhattan_refl. reflexivity. }
    split.
    + intros x [<-|[]]. exists 1. split; [lra|exact ec_closed].
    + intros u y Ly Hu Oy. left. refine (open_closed_eq ec y (seg o e u) len_ec Ly _ Oy).
      apply (cell_convex ec 0 1); [exact len_ec|lra| |exact ec_closed]. rewrite <- Q. exact oc_closed.
  - apply cell_eqb_neq in Q. destruct (setup m Q Hm) as (L & HL & Ls & Lt & Ee & Far & HH).
    unfold FO at 2 4. rewrite !cfp_real. fold oc.
    set (env := env_of RealA FO FE FB (Fin r) (Fin m)) in *. set (tm := tm_of RealA FO FE FB (Fin r)) in *.
    assert (J0 : J L oc tm 0).
    { constructor; try assumption.
      - exact len_oc. - lra.
      - intros i Hi Z. now apply (HH i Hi). - intros i Hi Z. now apply (HH i Hi).
      - exact oc_closed.
      - intros i Hi Z. now apply (nearest_mono i Hi).
      - intros i Hi Z. pose proof (proj1 (proj2 (nearest_mono i Hi)) Z). lia.
      - intros i Hi Z. pose proof (proj2 (proj2 (nearest_mono i Hi)) Z). lia. }
    destruct (ideal_loop env L HL Ls Ee Far (fun i Hi => proj1 (HH i Hi)) 
       (fun i Hi Z => proj2 (proj2 (proj2 (HH i Hi)) Z)) fuel oc tm 0 [oc] J0 Q F) as (path & R1 & R2 & R3 & R4).
    exists (oc :: path). split; [exact R1|]. split; [cbn [length]; lia|]. split; [|exact R4].
    intros x [<-|Hx]; [|now apply R3]. exists 0. split; [lra|exact oc_closed].
Qed.

Lemma ideal_places_cast : forall fuel m, m <= 0 -> (manhattan oc ec <= Z.of_nat fuel)%Z ->
  exists path, cast_ray RealA fuel FO FE FB (Fin r) (Fin m) = Ret (path, Some ec) /\ Z.of_nat (length path) = manhattan oc ec /\
    forall k x, nth_error (path ++ [ec]) k = Some x -> placed (manhattan oc ec - Z.of_nat k) x.
Proof.
  intros fuel m Hm F. rewrite cast_unfold. change (T RealA) with xreal.
  assert (Lf : @length xreal FO = d) by (unfold FO; now rewrite map_length). rewrite Lf.
  replace (Nat.eqb d 2 || Nat.eqb d 3)%bool with true by (destruct Hd as [-> | ->]; reflexivity).
  assert (BO : between oc ec oc) by (split; [reflexivity|]; intros; lia).
  unfold FO at 1, FE at 1. rewrite !cfp_real. fold oc ec. destruct (cell_eqb oc ec) eqn:Q.
  - apply cell_eqb_eq in Q. exists []. unfold FE. rewrite cfp_real. fold ec. split; [reflexivity|]. split.
    { rewrite Q, manhattan_refl. reflexivity. }
    intros [|[|n]] x X; cbn in X; try discriminate X. injection X as <-. split; [rewrite <- Q at 2; exact BO|]. split.
    + rewrite Q, manhattan_refl. reflexivity.
    + exists 1. split; [lra|exact ec_closed].
  - apply cell_eqb_neq in Q. destruct (setup m Q Hm) as (L & HL & Ls & Lt & Ee & Far & HH).
    unfold FO at 2 4. rewrite !cfp_real. fold oc.
    set (env := env_of RealA FO FE FB (Fin r) (Fin m)) in *. set (tm := tm_of RealA FO FE FB (Fin r)) in *.
    assert (J0 : J L oc tm 0).
    { constructor; try assumption.
      - exact len_oc. - lra.
      - intros i Hi Z. now apply (HH i Hi). - intros i Hi Z. now apply (HH i Hi).
      - exact oc_closed.
      - intros i Hi Z. now apply (nearest_mono i Hi).
      - intros i Hi Z. pose proof (proj1 (proj2 (nearest_mono i Hi)) Z). lia.
      - intros i Hi Z. pose proof (proj2 (proj2 (nearest_mono i Hi)) Z). lia. }
    destruct (ideal_places env L HL Ls Ee Far (fun i Hi => proj1 (HH i Hi)) 
       (fun i Hi Z => proj2 (proj2 (proj2 (HH i Hi)) Z)) fuel oc tm 0 [oc] J0 Q F) as (path & R1 & R2 & R3).
    exists (oc :: path). split; [exact R1|]. split; [cbn [length]; lia|]. intros [|n] x X; cbn [nth_error app] in X.
    + injection X as <-. rewrite Z.sub_0_r. split; [exact BO|]. split; [reflexivity|]. exists 0. split; [lra|exact oc_closed].
    + apply R3 in X. replace (manhattan oc ec - Z.of_nat (Datatypes.S n))%Z with (manhattan oc ec - 1 - Z.of_nat n)%Z by lia. exact X.
Qed.
End Ideal.
