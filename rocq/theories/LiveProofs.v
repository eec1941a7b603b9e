(** Fair executions of the whole program. *)
From Coq Require Import ZArith List Bool Reals Lra Lia Permutation Classical.
From Flocq Require Import Core BinarySingleNaN.
From Verif Require Import Base F32 FloatFacts Arith Geom NdArray GridMap RayCaster NoiseModel Spec SpecMap SpecNoise NdProofs GridProofs ExpandProofs MapProofs NoiseProofs ScanProofs Viz SpecViz VizProofs MainProofs ProgramProofs.
Open Scope Z_scope.

(** ** Executions and runs *)
Lemma exec_run : forall rec o st th ev n, execution rec o st th ev -> run rec (initial o) (observed_until ev n) (st n).
Proof.
  intros rec o st th ev n [S0 St]. induction n as [|n IH]; cbn [observed_until].
  - rewrite S0. constructor.
  - eapply run_step; [exact IH|apply St].
Qed.
Lemma exec_reaches : forall rec d m r t o st th ev n, om_new d m r t = Ret o -> execution rec o st th ev ->
  reaches rec d m r t (observed_until ev n) (st n).
Proof. intros rec d m r t o st th ev n E X. exists o. split; [exact E|now apply (exec_run _ _ _ th)]. Qed.

Definition idle (s : state) : Prop := cur s = WDone.
(** ** Something happens again and again *)
Lemma eventually : forall rec d r t m o st th ev (delta : state -> nat) (T : nat -> Prop),
  recording_ok d r t rec -> limit_near (max_range m) r -> om_new d m r t = Ret o -> execution rec o st th ev -> fair rec st th ->
  (forall n, T n \/ (delta (st (S n)) < delta (st n))%nat \/
     (th n = Render /\ ~ idle (st n) /\ delta (st (S n)) = delta (st n) /\ workers (st (S n)) = workers (st n))) ->
  forall n, exists k, (n <= k)%nat /\ T k.
Proof.
  intros rec d r t m o st th ev delta T RO HM E X Fa Hs n.
  assert (IP : forall k, Inv rec (st k) /\ Prog d r t m (observed_until ev k) (st k)).
  { intro k. apply prog_run; try assumption. now apply (exec_reaches _ _ _ _ _ o st th). }
  remember (delta (st n)) as q eqn:Eq. revert n Eq. induction q as [q IH] using lt_wf_ind. intros n Eq.
  assert (A : exists k, (n <= k)%nat /\ (T k \/ (delta (st (S k)) < delta (st k))%nat)).
  { apply NNPP. intro N.
    assert (B : forall k, (n <= k)%nat -> th k = Render /\ ~ idle (st k) /\ delta (st (S k)) = delta (st k) /\ workers (st (S k)) = workers (st k)).
    { intros k Hk. destruct (Hs k) as [H|[H|H]]; [exfalso; apply N; exists k; auto|exfalso; apply N; exists k; auto|exact H]. }
    assert (W : forall k, (n <= k)%nat -> workers (st k) = workers (st n)).
    { intros k Hk. induction Hk as [|k Hk IHk]; [reflexivity|]. rewrite <- IHk. apply B. exact Hk. }
    destruct (Fa (Worker (num (st n))) n) as (k & Hk & Ek).
    - intros k Hk. destruct (IP k) as [I P]. replace (num (st n)) with (num (st k)) by (unfold num; now rewrite (W k Hk)).
      destruct (B k Hk) as (_ & Nd & _). pose proof (p_alive _ _ _ _ _ _ P) as Na. unfold idle, cur in *. destruct (workers (st k)) as [|w ws] eqn:Ew; [now elim Nd|].
      apply (prog_moves rec d r t m (observed_until ev k) (st k) w RO HM I P); [rewrite Ew; now left|]. unfold alive. destruct (w_pc w); congruence.
    - destruct (B k Hk) as (C & _). congruence. }
  assert (A' : exists k, (n <= k)%nat /\ (T k \/ (delta (st (S k)) < delta (st n))%nat)).
  { destruct A as (k & Hk & Dk). remember (k - n)%nat as j eqn:Ej. revert k Hk Dk Ej. induction j as [j IHj] using lt_wf_ind. intros k Hk Dk Ej.
    destruct (Nat.eq_dec k n) as [->|Nk]; [exists n; auto|].
    destruct (Nat.lt_ge_cases (delta (st n)) (delta (st k))) as [L|L].
    - assert (Z : exists i, (n <= i < k)%nat /\ (T i \/ (delta (st (S i)) < delta (st i))%nat)).
      { apply NNPP. intro N. assert (B : forall i, (n <= i <= k)%nat -> delta (st i) = delta (st n)).
        { intros i [Hi1 Hi2]. induction Hi1 as [|i Hi IHi]; [reflexivity|]. rewrite <- IHi by lia.
          destruct (Hs i) as [H|[H|H]]; [exfalso; apply N; exists i; split; [lia|auto]|exfalso; apply N; exists i; split; [lia|auto]|apply H]. }
        rewrite (B k) in L by lia. lia. }
      destruct Z as (i & Hi & Di). apply (IHj (i - n)%nat) with (k := i); try lia. exact Di.
    - exists k. split; [lia|]. destruct Dk as [Dk|Dk]; [auto|right; lia]. }
  destruct A' as (k & Hk & [Tk|Dk]); [exists k; auto|].
  destruct (IH (delta (st (S k))) ltac:(lia) (S k) eq_refl) as (j & Hj & Tj). exists j. split; [lia|exact Tj].
Qed.

Definition to_integration (s : state) : nat :=
  match cur s with
  | WIntegrate => 1 | WTrack => 2 | WLockGrid => 3
  | WDone => match render s with
             | RSpawn => 4 | RStore => 5 | RUnlockReports => 6 | RUnlockGrid => 7 | RConsume => 8 | RLockGrid => 9 | RLockReports => 10
             | RLoad => 11 | RDraw => 12 | RIndex => 13 | RPanicked => 0 end
  | WUnlockGrid => 14 | WStore => 15 | WUntrack => 16 | WClear => 17 | WUnlockReports => 18 | WReport => 19 | WLockReports => 20
  | WPanicked => 0
  end%nat.
Definition to_consumption (s : state) : nat :=
  match cur s with
  | WDone => match render s with
             | RConsume => 1 | RLockGrid => 2 | RLockReports => 3 | RLoad => 4 | RDraw => 5 | RIndex => 6
             | RSpawn => 17 | RStore => 18 | RUnlockReports => 19 | RUnlockGrid => 20 | RPanicked => 0 end
  | WUnlockGrid => 7 | WStore => 8 | WUntrack => 9 | WClear => 10 | WUnlockReports => 11 | WReport => 12 | WLockReports => 13
  | WIntegrate => 14 | WTrack => 15 | WLockGrid => 16
  | WPanicked => 0
  end%nat.

(** What a step of a good run does. *)
Lemma step_kinds : forall rec s th ev s', recorded rec -> Inv rec s -> cur s' <> WPanicked -> step rec s th ev s' ->
  ((exists a b, In (EIntegrate a b) ev) \/ (to_integration s' < to_integration s)%nat \/
   (th = Render /\ ~ idle s /\ to_integration s' = to_integration s /\ workers s' = workers s)) /\
  (((exists l, ev = [EConsume l]) /\ render s = RConsume) \/ (to_consumption s' < to_consumption s)%nat \/
   (th = Render /\ ~ idle s /\ to_consumption s' = to_consumption s /\ workers s' = workers s)).
Proof.
  intros rec s th ev s' R I NP H. unfold to_integration, to_consumption, idle. pose proof (never_panics _ _ (inv_step _ _ _ _ _ R I H)) as NR.
  destruct H as [ev s' H|newer w older ev pc s' Ew H].
  - pose proof (i_phase _ _ I) as P. pose proof (i_finished _ _ I) as F. pose proof (i_spawned _ _ I) as Sp.
    destruct H; rewrite H in *; fields; unfold cur in *; fields; try congruence;
    (destruct (workers s) as [|w ws]; [|destruct (w_pc w) eqn:Ep; try discriminate P]); cbn [finished_at w_pc] in *; try congruence; rewrite ?Ep;
    try (now elim (Sp eq_refl)); split; eauto; right; try (left; lia); right; repeat split; auto; discriminate.
  - pose proof (worker_newest _ _ _ _ _ _ _ _ I Ew H) as ->. cbn [app] in *. pose proof (i_phase _ _ I) as P. unfold cur in *. fields. rewrite Ew in *. cbn [w_pc at_pc] in *.
    destruct H; rewrite H in *; try congruence; fields; (split; [|right; left]); try (left; eexists _, _; left; reflexivity); try (right; left);
    try lia; destruct (render s); try lia; discriminate P.
Qed.

Lemma step_corner : forall rec s th ev s', cur s' <> WPanicked -> Inv rec s -> step rec s th ev s' -> corner_kept ev ->
  (exists c v, gm_get (om_grid (grid s)) c = Ret v) -> bmin (gm_bounds (om_grid (grid s'))) = bmin (gm_bounds (om_grid (grid s))).
Proof.
  intros rec s th ev s' NP I H CK (c & v & G). destruct H as [ev s' H|newer w older ev pc s' Ew H]; [destruct H; reflexivity|].
  pose proof (worker_newest _ _ _ _ _ _ _ _ I Ew H) as ->. unfold cur in NP. fields. cbn [app w_pc at_pc] in NP.
  destruct H; fields; try reflexivity; try congruence.
  destruct (CK (grid s) o' (or_introl eq_refl)) as [K|K]; [now symmetry|]. exfalso. exact (K c v G).
Qed.
Lemma step_tracked : forall rec s th ev s', step rec s th ev s' -> tracked s' = tracked s \/ render s' = RUnlockGrid.
Proof.
  intros rec s th ev s' H. destruct H as [ev s' H|newer w older ev pc s' Ew H]; destruct H; fields; auto.
Qed.

Section Execution.
Context (rec : recording) (d : nat) (r : f32) (t : Z) (m : lidar) (o : occ_map)
        (st : nat -> state) (th : nat -> thread) (ev : nat -> list event).
Context (RO : recording_ok d r t rec).
Context (HM : limit_near (max_range m) r).
Context (E : om_new d m r t = Ret o).
Context (X : execution rec o st th ev).
Context (Fa : fair rec st th).

Lemma exec_inv : forall k, Inv rec (st k) /\ Prog d r t m (observed_until ev k) (st k).
Proof. intro k. apply prog_run; try assumption. now apply (exec_reaches _ _ _ _ _ o st th). Qed.
Lemma exec_kinds : forall n,
  ((exists a b, In (EIntegrate a b) (ev n)) \/ (to_integration (st (S n)) < to_integration (st n))%nat \/
   (th n = Render /\ ~ idle (st n) /\ to_integration (st (S n)) = to_integration (st n) /\ workers (st (S n)) = workers (st n))) /\
  (((exists l, ev n = [EConsume l]) /\ render (st n) = RConsume) \/ (to_consumption (st (S n)) < to_consumption (st n))%nat \/
   (th n = Render /\ ~ idle (st n) /\ to_consumption (st (S n)) = to_consumption (st n) /\ workers (st (S n)) = workers (st n))).
Proof.
  intro n. destruct (exec_inv n) as [I _], (exec_inv (S n)) as [_ P]. apply (step_kinds rec (st n) (th n) (ev n) (st (S n))); try assumption.
  - apply RO.
  - apply (p_alive _ _ _ _ _ _ P).
  - apply (ex_step _ _ _ _ _ X).
Qed.

Lemma again_integrates : forall n, exists k, (n <= k)%nat /\ exists a b, In (EIntegrate a b) (ev k).
Proof. apply (eventually rec d r t m o st th ev to_integration); try assumption. intro n. apply exec_kinds. Qed.
Lemma again_consumes : forall n, exists k, (n <= k)%nat /\ (exists l, ev k = [EConsume l]) /\ render (st k) = RConsume.
Proof. apply (eventually rec d r t m o st th ev to_consumption (fun k => (exists l, ev k = [EConsume l]) /\ render (st k) = RConsume)); try assumption. intro n. apply exec_kinds. Qed.

Lemma until_mono : forall n k, (n <= k)%nat -> (integrations (observed_until ev n) <= integrations (observed_until ev k))%nat.
Proof. intros n k H. induction H as [|k H IH]; [lia|]. cbn [observed_until]. rewrite integrations_app. lia. Qed.
Lemma integrations_in : forall l a b, In (EIntegrate a b) l -> (1 <= integrations l)%nat.
Proof. induction l as [|e l IH]; intros a b H; [destruct H|]. destruct H as [->|H]; [cbn; lia|]. specialize (IH _ _ H). destruct e; cbn [integrations]; lia. Qed.
Lemma live : forall q, exists n, (q <= integrations (observed_until ev n))%nat.
Proof.
  induction q as [|q [n IH]]; [exists O; lia|]. destruct (again_integrates n) as (k & Hk & a & b & Hin).
  exists (S k). cbn [observed_until]. rewrite integrations_app. pose proof (integrations_in _ _ _ Hin). pose proof (until_mono n k Hk). lia.
Qed.

Context (w : cell) (b : bool) (vs : list (option bool)).
Context (Lw : length w = d).
Context (SG : signs_ok m).
Context (Sv : Forall2 (says (max_range m) r w) (combine (origins rec) (clouds rec)) vs).
Context (Sb : Forall (fun v => v = None \/ v = Some b) vs).
Context (Sx : Exists (fun v => v <> None) vs).
Context (TH : if b then fltb (occupied_threshold_logodds m) (evidence m f0 true) = true else fle f0 (occupied_threshold_logodds m)).

Lemma nth_error_combine : forall (A B : Type) (l : list A) (l' : list B) i x y, nth_error l i = Some x -> nth_error l' i = Some y ->
  nth_error (combine l l') i = Some (x, y).
Proof.
  intros A B l. induction l as [|a l IH]; intros [|c l'] [|i] x y H K; try discriminate H; try discriminate K.
  - injection H as ->. injection K as ->. reflexivity.
  - cbn. now apply IH.
Qed.
Lemma Forall2_nth_error : forall (A B : Type) (R : A -> B -> Prop) l l' i x y, Forall2 R l l' -> nth_error l i = Some x -> nth_error l' i = Some y -> R x y.
Proof.
  intros A B R l l' i x y H. revert i. induction H as [|a c l l' H0 H IH]; intros [|i] K K'; try discriminate K.
  - injection K as ->. injection K' as ->. exact H0.
  - now apply (IH i).
Qed.

(** After all frames have been integrated once, the map is right about [w] for ever. *)
Lemma settled : exists N, forall n, (N <= n)%nat -> exists cb, covers_cells d r t (om_grid (grid (st n))) cb /\ in_box cb w /\
  om_occupied (grid (st n)) (map2 Z.sub w (cmin cb)) = Ret b.
Proof.
  destruct (live (length (clouds rec))) as (N & HN). exists N. intros n Hn.
  pose proof (until_mono N n Hn) as Mo. pose proof RO as ((RL & RN) & M & _).
  set (q := length (clouds rec)) in *.
  assert (Hq : q <> 0%nat) by (unfold q; destruct (clouds rec); [contradiction|discriminate]).
  pose proof (exec_reaches rec d m r t o st th ev n E X) as Re.
  destruct (program_map rec d r t m _ _ RO HM Re) as (L & rest & ST & LI & _ & SC).
  assert (Lv : length vs = q).
  { rewrite <- (Forall2_length _ _ _ Sv), combine_length. unfold q. lia. }
  set (us := map (fun k => nth (k mod q) vs None) (seq 0 (length L))).
  assert (Su : Forall2 (says (max_range m) r w) L us).
  { assert (G : forall k p, nth_error L k = Some p -> says (max_range m) r w p (nth (k mod q) vs None)).
    { intros k [oo c] Hk. destruct (cyclic_run rec d m r t _ _ k oo c (proj1 RO) Re) as [C1 C2].
      - rewrite ST. rewrite nth_error_app1; [exact Hk|]. apply nth_error_Some. congruence.
      - apply (Forall2_nth_error _ _ _ _ _ (k mod q) _ _ Sv); [now apply nth_error_combine|].
        apply nth_error_nth'. rewrite Lv. now apply Nat.mod_upper_bound. }
    unfold us. clear - G. assert (H : forall a, (forall k p, nth_error L k = Some p -> says (max_range m) r w p (nth ((a + k) mod q) vs None)) ->
      Forall2 (says (max_range m) r w) L (map (fun k => nth (k mod q) vs None) (seq a (length L)))).
    { clear G. induction L as [|p L IH]; intros a G; cbn [length seq map]; constructor.
      - specialize (G 0%nat p eq_refl). now rewrite Nat.add_0_r in G.
      - apply IH. intros k p' K. specialize (G (S k) p' K). now rewrite Nat.add_succ_r in G. }
    apply H. exact G. }
  assert (Ub : Forall (fun v => v = None \/ v = Some b) us).
  { unfold us. apply Forall_forall. intros v Hv. apply in_map_iff in Hv. destruct Hv as (k & <- & _).
    rewrite Forall_forall in Sb. apply Sb. apply nth_In. rewrite Lv. now apply Nat.mod_upper_bound. }
  assert (Ux : Exists (fun v => v <> None) us).
  { apply Exists_exists in Sx. destruct Sx as (v & Hv & Nv). apply (In_nth _ _ None) in Hv. destruct Hv as (i & Hi & Ei).
    apply Exists_exists. exists v. split; [|exact Nv]. unfold us. apply in_map_iff. exists i. rewrite Lv in Hi.
    split; [rewrite Nat.mod_small by lia; exact Ei|]. apply in_seq. lia. }
  destruct (static_scene d r t m (grid (st n)) L w us M HM SG SC Lw Su Ux) as (cb & C & B & S1 & S2).
  exists cb. split; [exact C|]. split; [exact B|]. destruct b; [now apply S1|now apply S2].
Qed.

Context (CK : forall n, corner_kept (observed_until ev n)).

Context (TN : fltb (occupied_threshold_logodds m) f0 = false).

(** ... and so is the display. *)
Lemma displayed : exists N, forall n, (N <= n)%nat -> exists cb, covers_cells d r t (om_grid (grid (st n))) cb /\ in_box cb w /\
  ((exists p, In (map2 Z.sub w (cmin cb), p) (tracked (st n))) <-> b = true) /\
  (forall p, In (map2 Z.sub w (cmin cb), p) (tracked (st n)) -> near_cell r w p).
Proof.
  destruct settled as (N & HS). destruct (HS N (le_n _)) as (cb0 & C0 & B0 & O0). set (c := map2 Z.sub w (cmin cb0)) in *.
  pose proof RO as (R & M & _ & _ & FO). pose proof (proj1 (proj2 M)) as HR.
  assert (get : forall n cb, om_occupied (grid (st n)) (map2 Z.sub w (cmin cb)) = Ret b -> exists c v, gm_get (om_grid (grid (st n))) c = Ret v).
  { intros n cb K. unfold om_occupied, occupied in K. destruct (gm_get (om_grid (grid (st n))) (map2 Z.sub w (cmin cb))) as [v| |] eqn:G; [|discriminate K|discriminate K]. eauto. }
  assert (K0 : forall n, (N <= n)%nat -> exists cb, covers_cells d r t (om_grid (grid (st n))) cb /\ in_box cb w /\ cmin cb = cmin cb0 /\
    om_occupied (grid (st n)) c = Ret b).
  { assert (Bm : forall n, (N <= n)%nat -> bmin (gm_bounds (om_grid (grid (st n)))) = bmin (gm_bounds (om_grid (grid (st N))))).
    { intros n Hn. induction Hn as [|n Hn IH]; [reflexivity|]. rewrite <- IH. destruct (exec_inv n) as [I _], (exec_inv (S n)) as [_ P].
      apply (step_corner rec (st n) (th n) (ev n)); try assumption.
      - apply (p_alive _ _ _ _ _ _ P).
      - apply (ex_step _ _ _ _ _ X).
      - intros x y Hin. apply (CK (S n)). cbn [observed_until]. apply in_or_app. now right.
      - destruct (HS n Hn) as (cb & _ & _ & K). exact (get n cb K). }
    intros n Hn. destruct (HS n Hn) as (cb & C & B & O). exists cb. split; [exact C|]. split; [exact B|].
    assert (Ec : cmin cb = cmin cb0).
    { destruct C as [_ _ _ _ [N1 _] V1 _ _ _], C0 as [_ _ _ _ [N1' _] V1' _ _ _]. rewrite (Bm n Hn) in V1. exact (at_cell_unique r _ _ _ HR N1 N1' V1 V1'). }
    split; [exact Ec|]. rewrite Ec in O. exact O. }
  assert (box : forall n cb, covers_cells d r t (om_grid (grid (st n))) cb -> in_box cb w -> cmin cb = cmin cb0 -> in_range (nd_shape (gm_data (om_grid (grid (st n))))) c).
  { intros n cb C B Ec. pose proof C as [_ _ (L1 & L2 & _) _ _ _ _ Vs St]. apply box_range in B; [|congruence]. destruct B as [_ B]. rewrite <- Vs, Ec in B. exact B. }
  assert (Ic : cells_in_isize c).
  { apply (range_isize (nd_shape (gm_data (om_grid (grid (st N)))))); [apply (cc_storage _ _ _ _ _ C0)|]. apply (box N cb0); auto. }
  assert (RQ : Forall (fun c => request_ok d r (pc_bounds c)) (clouds rec)).
  { apply Forall_forall. intros cl Hcl. apply (In_nth_error) in Hcl. destruct Hcl as (i & Hi).
    destruct (nth_error (origins rec) i) as [oo|] eqn:Ho.
    - rewrite Forall_forall in FO. specialize (FO _ (combine_nth rec i oo cl Ho Hi)). exact (frame_request d r oo cl HR FO).
    - exfalso. apply nth_error_None in Ho. assert (i < length (clouds rec))%nat by (apply nth_error_Some; congruence). destruct R as [RL _]. lia. }
  assert (DR : forall n, (forall c p, In (c, p) (tracked (st n)) -> p = gm_point_from_cell (om_grid (grid (st n))) c) /\
    (render (st n) = RUnlockGrid -> (exists p, In (c, p) (tracked (st n))) <-> om_occupied (grid (st n)) c = Ret true)).
  { intro n. pose proof (exec_reaches rec d m r t o st th ev n E X) as Re. destruct (exec_inv n) as [I P].
    destruct (program_safe rec d r t m _ _ RO HM Re) as [NP _].
    destruct (display_right rec d r t m _ _ R M RQ TN Re (CK n) NP) as (_ & D1 & D2 & D3). split; [exact D1|].
    intro Er. destruct (D3 Er) as [Z1 Z2]. apply D2; [exact Ic|rewrite Z1; now intros []|rewrite Z2; now intros []]. }
  destruct (again_consumes N) as (k & Hk & (l & El) & Ek).
  assert (Er : render (st (S k)) = RUnlockGrid).
  { pose proof (ex_step _ _ _ _ _ X k) as St. rewrite El in St. clear - St Ek. inversion St as [e s' H|newer w0 older e pc s' Ew H]; subst.
    - destruct (st k); destruct (st (S k)); inversion H; subst; fields; congruence.
    - inversion H. }
  assert (K : forall n, (S k <= n)%nat -> (exists p, In (c, p) (tracked (st n))) <-> b = true).
  { assert (U : forall n, (N <= n)%nat -> render (st n) = RUnlockGrid -> (exists p, In (c, p) (tracked (st n))) <-> b = true).
    { intros n Hn Hr. rewrite (proj2 (DR n) Hr). destruct (K0 n Hn) as (cb & _ & _ & _ & ->). split; congruence. }
    intros n Hn. induction Hn as [|n Hn IH]; [apply U; [lia|exact Er]|].
    destruct (step_tracked _ _ _ _ _ (ex_step _ _ _ _ _ X n)) as [Et|Et]; [now rewrite Et|]. apply U; [lia|exact Et]. }
  exists (S k). intros n Hn. destruct (K0 n ltac:(lia)) as (cb & C & B & Ec & O). exists cb. split; [exact C|]. split; [exact B|]. rewrite Ec. fold c.
  split; [now apply K|]. intros p Hp. rewrite (proj1 (DR n) c p Hp).
  destruct (exec_inv n) as [_ P]. destruct P as [_ (L & _ & SC & _) _]. destruct (scanned_facts _ _ _ _ _ _ SC) as [_ Rg].
  pose proof (covers_wf d r t _ _ M Rg C) as W.
  pose proof (cells_near d r t _ cb c M W (box n cb C B Ec)) as Nc. replace w with (map2 Z.add (cmin cb) c); [exact Nc|].
  unfold c. rewrite <- Ec. apply box_add. rewrite Lw. symmetry. apply (cc_ordered _ _ _ _ _ C).
Qed.
End Execution.

(** ** Fair executions exist *)
(** What the render thread does next, and what worker [w], the newest, does next. *)
Definition render_next (rec : recording) (s : state) : option (list event * state) :=
  match render s with
  | RLoad => Some ([], set_render s (if finished s then RLockReports else RDraw))
  | RLockReports => match owner (reports_lock s), poisoned (reports_lock s) with
                    | None, false => Some ([], set_render (set_reports_lock s (held_by Render)) RLockGrid)
                    | _, _ => None end
  | RLockGrid => match owner (grid_lock s), poisoned (grid_lock s) with
                 | None, false => Some ([], set_render (set_grid_lock s (held_by Render)) RConsume)
                 | _, _ => None end
  | RConsume => match consume (grid s) (reports s) (tracked s) with
                | Ret t => Some ([EConsume (reports s)], set_render (set_reports (set_tracked s t) []) RUnlockGrid)
                | _ => None end
  | RUnlockGrid => Some ([], set_render (set_grid_lock s free_mutex) RUnlockReports)
  | RUnlockReports => Some ([], set_render (set_reports_lock s free_mutex) RStore)
  | RStore => Some ([], set_render (set_finished s false) RSpawn)
  | RSpawn => match nth_error (origins rec) (index s), nth_error (clouds rec) (index s) with
              | Some o, Some c => Some ([EStart o c], set_render (set_workers s (mkWorker o c WLockGrid :: workers s)) RIndex)
              | _, _ => None end
  | RIndex => match clouds rec with
              | [] => None
              | _ => Some ([], set_render (set_index s ((index s + 1) mod length (clouds rec))) RDraw) end
  | RDraw => match nth_error (origins rec) (index s) with
             | Some _ => Some ([EFrame (tracked s)], set_render s RLoad)
             | None => None end
  | RPanicked => None
  end.
Definition work_next (s : state) (k : nat) (w : worker) : option (list event * wpc * state) :=
  match w_pc w with
  | WLockGrid => match owner (grid_lock s), poisoned (grid_lock s) with
                 | None, false => Some ([], WTrack, set_grid_lock s (held_by (Worker k)))
                 | _, _ => None end
  | WTrack => Some ([], WIntegrate, set_grid s (track (grid s) true))
  | WIntegrate => match om_integrate 3072 (fun l => l) (fun l => l) (grid s) (w_origin w) (w_cloud w) with
                  | Ret o' => Some ([EIntegrate (grid s) o'], WLockReports, set_grid s o')
                  | _ => None end
  | WLockReports => match owner (reports_lock s), poisoned (reports_lock s) with
                    | None, false => Some ([], WReport, set_reports_lock s (held_by (Worker k)))
                    | _, _ => None end
  | WReport => Some ([EReport (gm_changed_cells (om_grid (grid s)))], WUnlockReports, set_reports s (gm_changed_cells (om_grid (grid s))))
  | WUnlockReports => Some ([], WClear, set_reports_lock s free_mutex)
  | WClear => Some ([], WUntrack, set_grid s (clear (grid s)))
  | WUntrack => Some ([], WStore, set_grid s (track (grid s) false))
  | WStore => Some ([], WUnlockGrid, set_finished s true)
  | WUnlockGrid => Some ([], WDone, set_grid_lock s free_mutex)
  | WDone | WPanicked => None
  end.
Definition worker_next (s : state) : option (list event * state) :=
  match workers s with
  | [] => None
  | w :: older => match work_next s (length older) w with
                  | Some (ev, pc, s') => Some (ev, set_workers s' (at_pc w pc :: older))
                  | None => None end
  end.

Lemma render_next_step : forall rec s ev s', render_next rec s = Some (ev, s') -> step rec s Render ev s'.
Proof.
  intros rec s ev s' H. apply s_render. unfold render_next in H. destruct (render s) eqn:Er; try discriminate H.
  - destruct (finished s) eqn:Ef; injection H as <- <-; [now apply r_ready|now apply r_busy].
  - destruct (owner (reports_lock s)) eqn:Eo; [discriminate H|]. destruct (poisoned (reports_lock s)) eqn:Ep; [discriminate H|]. injection H as <- <-. now apply r_lock_reports.
  - destruct (owner (grid_lock s)) eqn:Eo; [discriminate H|]. destruct (poisoned (grid_lock s)) eqn:Ep; [discriminate H|]. injection H as <- <-. now apply r_lock_grid.
  - destruct (consume _ _ _) as [t| |] eqn:Ec; try discriminate H. injection H as <- <-. now apply r_consume.
  - injection H as <- <-. now apply r_unlock_grid.
  - injection H as <- <-. now apply r_unlock_reports.
  - injection H as <- <-. now apply r_store.
  - destruct (nth_error (origins rec) (index s)) eqn:Eo; [|discriminate H]. destruct (nth_error (clouds rec) (index s)) eqn:Ec; [|discriminate H]. injection H as <- <-. now apply r_spawn.
  - destruct (clouds rec) eqn:Ec; [discriminate H|]. rewrite <- Ec in H. injection H as <- <-. apply r_index; [assumption|]. rewrite Ec. discriminate.
  - destruct (nth_error (origins rec) (index s)) eqn:Eo; [|discriminate H]. injection H as <- <-. apply r_draw; [assumption|congruence].
Qed.
Lemma worker_next_step : forall rec s ev s', worker_next s = Some (ev, s') -> step rec s (Worker (num s)) ev s'.
Proof.
  intros rec s ev s' H. unfold worker_next in H. unfold num. destruct (workers s) as [|w older] eqn:Ew; [discriminate H|]. cbn [tl].
  destruct (work_next s (length older) w) as [[[e pc] s1]|] eqn:En; [|discriminate H]. injection H as <- <-.
  change (at_pc w pc :: older) with ([] ++ at_pc w pc :: older). apply s_worker; [exact Ew|].
  unfold work_next in En. destruct (w_pc w) eqn:Ep; try discriminate En.
  - destruct (owner (grid_lock s)) eqn:Eo; [discriminate En|]. destruct (poisoned (grid_lock s)) eqn:Eq; [discriminate En|]. injection En as <- <- <-. now apply w_lock_grid.
  - injection En as <- <- <-. now apply w_track.
  - destruct (om_integrate _ _ _ _ _ _) as [o'| |] eqn:Eo; try discriminate En. injection En as <- <- <-. eapply w_integrate; [assumption| | |exact Eo]; apply id_order.
  - destruct (owner (reports_lock s)) eqn:Eo; [discriminate En|]. destruct (poisoned (reports_lock s)) eqn:Eq; [discriminate En|]. injection En as <- <- <-. now apply w_lock_reports.
  - injection En as <- <- <-. now apply w_report.
  - injection En as <- <- <-. now apply w_unlock_reports.
  - injection En as <- <- <-. now apply w_clear.
  - injection En as <- <- <-. now apply w_untrack.
  - injection En as <- <- <-. now apply w_store.
  - injection En as <- <- <-. now apply w_unlock_grid.
Qed.
Lemma render_next_some : forall rec s, recorded rec -> Inv rec s -> moves rec Render s -> render_next rec s <> None.
Proof.
  intros rec s R I (ev & s' & H) N. pose proof (never_panics _ _ (inv_step _ _ _ _ _ R I H)) as NR. inversion H as [? ? H'|]; subst. unfold render_next in N.
  destruct H'; rewrite H0 in N; fields; try congruence;
  repeat match goal with A : owner _ = _ |- _ => rewrite A in N | A : poisoned _ = _ |- _ => rewrite A in N | A : consume _ _ _ = _ |- _ => rewrite A in N
    | A : nth_error _ _ = _ |- _ => rewrite A in N end; try discriminate N.
  - destruct (clouds rec); [now elim H1|discriminate N].
  - destruct (nth_error (origins rec) (index s)); congruence.
Qed.
Lemma worker_next_some : forall rec d r t m tr s k, recording_ok d r t rec -> limit_near (max_range m) r -> Inv rec s -> Prog d r t m tr s ->
  moves rec (Worker k) s -> worker_next s <> None /\ k = num s.
Proof.
  intros rec d r t m tr s k RO HM I P (ev & s' & H). pose proof (p_alive _ _ _ _ _ _ (prog_step _ _ _ _ _ _ _ _ _ _ RO HM I P H)) as NP.
  inversion H as [|newer w older ? pc s1 Ew W]; subst. pose proof (worker_newest _ _ _ _ _ _ _ _ I Ew W) as ->. cbn [app] in *.
  split; [|unfold num; now rewrite Ew]. unfold worker_next. rewrite Ew. intro N. destruct (work_next s (length older) w) as [[[? ?] ?]|] eqn:En; [discriminate N|].
  unfold cur in NP. fields. cbn [w_pc at_pc] in NP. unfold work_next in En.
  destruct W as [Hp HO HP|Hp HO HP|Hp|fuel of oo o' Hp Hf Ho HI|fuel of oo o' Hp Hf Ho HI|Hp HO HP|Hp HO HP|Hp|Hp|Hp|Hp|Hp|Hp]; rewrite Hp in *; try congruence; try (rewrite HO, HP in En; congruence).
  destruct RO as (R & M & Ht & Hr & FO). destruct P as [PA (L & cb & SC & ST & LI & W & NC) PF].
  assert (F : frame_ok d r (w_origin w) (w_cloud w)).
  { apply PF. rewrite ST. apply in_or_app. right. unfold pend. rewrite Ew, Hp. now left. }
  destruct (integrate_frame d r t m (grid s) L cb _ _ M Ht Hr HM SC W NC F 3072 (fun l => l) (fun l => l) id_order id_order) as (_ & Q & _).
  destruct (Q (le_n _)) as (o1 & E1). rewrite E1 in En. discriminate En.
Qed.

(** The threads take turns, as far as they can. *)
Definition turn (rec : recording) (s : state) (b : bool) : thread * list event * state :=
  match (if b then render_next rec s else worker_next s), (if b then worker_next s else render_next rec s) with
  | Some (ev, s'), _ => (if b then Render else Worker (num s), ev, s')
  | None, Some (ev, s') => (if b then Worker (num s) else Render, ev, s')
  | None, None => (Render, [], s)
  end.
Fixpoint turns (rec : recording) (o : occ_map) (n : nat) : state :=
  match n with O => initial o | S k => snd (turn rec (turns rec o k) (Nat.even k)) end.

Lemma fair_exists : forall rec d r t m o, recording_ok d r t rec -> limit_near (max_range m) r -> om_new d m r t = Ret o ->
  exists st th ev, execution rec o st th ev /\ fair rec st th.
Proof.
  intros rec d r t m o RO HM E. pose proof (proj1 RO) as R.
  set (st := turns rec o). set (th := fun n => fst (fst (turn rec (st n) (Nat.even n)))). set (ev := fun n => snd (fst (turn rec (st n) (Nat.even n)))).
  assert (T : forall s b, Inv rec s -> (exists tr, Prog d r t m tr s) -> step rec s (fst (fst (turn rec s b))) (snd (fst (turn rec s b))) (snd (turn rec s b))).
  { intros s b I [tr P]. unfold turn.
    assert (A : render_next rec s <> None \/ worker_next s <> None).
    { destruct (classic (cur s <> WUnlockGrid \/ render s <> RLockGrid)) as [K|K].
      - left. apply render_next_some; try assumption. now apply render_moves.
      - right. assert (K1 : cur s = WUnlockGrid) by (destruct (cur s); try reflexivity; exfalso; apply K; left; discriminate).
        unfold cur, worker_next in *. destruct (workers s) as [|w ws]; [discriminate K1|]. unfold work_next. rewrite K1. discriminate. }
    destruct b; destruct (render_next rec s) as [[e1 s1]|] eqn:E1; destruct (worker_next s) as [[e2 s2]|] eqn:E2; cbn [fst snd];
    try (now apply render_next_step); try (now apply worker_next_step); destruct A as [A|A]; now elim A. }
  assert (IP : forall n, Inv rec (st n) /\ exists tr, Prog d r t m tr (st n)).
  { induction n as [|n [I [tr P]]].
    - split; [eapply inv_initial; eassumption|]. exists []. apply prog_initial; [apply RO|assumption].
    - specialize (T (st n) (Nat.even n) I (ex_intro _ tr P)). split; [eapply inv_step; [exact R|exact I|exact T]|].
      eexists. eapply prog_step; [exact RO|exact HM|exact I|exact P|exact T]. }
  exists st, th, ev. split.
  - split; [reflexivity|]. intro n. destruct (IP n) as [I P]. exact (T (st n) (Nat.even n) I P).
  - intros x n Hx. assert (G : exists k, (n <= k)%nat /\ Nat.even k = (match x with Render => true | Worker _ => false end)).
    { destruct (Nat.even n) eqn:En.
      - destruct x; [exists n; auto|exists (S n); split; [lia|]]. rewrite Nat.even_succ, <- Nat.negb_even, En. reflexivity.
      - destruct x; [exists (S n); split; [lia|]|exists n; auto]. rewrite Nat.even_succ, <- Nat.negb_even, En. reflexivity. }
    destruct G as (k & Hk & Ek). exists k. split; [exact Hk|]. specialize (Hx k Hk). destruct (IP k) as [I [tr P]].
    unfold th, turn. rewrite Ek. destruct x as [|j].
    + pose proof (render_next_some rec (st k) R I Hx) as N. destruct (render_next rec (st k)) as [[e s]|]; [reflexivity|now elim N].
    + destruct (worker_next_some rec d r t m tr (st k) j RO HM I P Hx) as [N ->]. destruct (worker_next (st k)) as [[e s]|]; [reflexivity|now elim N].
Qed.
