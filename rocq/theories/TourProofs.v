(** C98: the visualiser in a world with walls. *)
From Coq Require Import ZArith List Bool Reals Lra Lia Classical Permutation.
From Flocq Require Import Core BinarySingleNaN.
From Verif Require Import Base F32 FloatFacts Arith Geom NdArray GridMap RayCaster NoiseModel Spec SpecMap SpecNoise SpecOdds SpecBack SpecMeet SpecNear
  NdProofs GridProofs ExpandProofs MapProofs CloudProofs NoiseProofs ScanProofs Viz SpecViz VizProofs MainProofs ProgramProofs LiveProofs CornerProofs AlignProofs ConverterProofs SpecWorld SpecWall SpecTour WorldMapProofs WallProofs.
Open Scope Z_scope.

(** ** From frames to scans *)
Lemma scan_records : forall d m r g s o c, scan_ok d r g o c -> taken_at d m r s (o, c) -> records d m r g s o c.
Proof.
  intros d m r g s o c (MO & N & Lo & RQ & H) [T1 T2]. cbn [fst snd] in *. split; [exact Lo|]. split; [exact RQ|]. split; [exact T1|].
  intros g1 E. destruct (H g1 E) as [_ B]. pose proof (pc_points_length c MO) as L. rewrite N in L. rewrite Forall_forall in L.
  clear - T2 B L. revert B L. induction T2 as [|q p l l' [A1 A2] F IH]; intros B L; constructor.
  - destruct (B p (or_introl eq_refl)) as (_ & R & _). split; [apply L; now left|]. auto.
  - apply IH; intros; [apply B|apply L]; now right.
Qed.
Lemma scanned_recorded : forall d r t m o L, scanned d r t m o L -> forall S, Forall2 (taken_at d (max_range m) r) S L -> SpecWorld.recorded d r t m o S.
Proof.
  intros d r t m o L H. induction H as [o E|o L fuel of oo origin cloud o' H IH Hf Ho SK Fu E|o L x H IH|o L H IH]; intros S F.
  - inversion F; subst. now apply recorded_new.
  - apply Forall2_app_inv_r in F. destruct F as (S1 & S2 & F1 & F2 & ->). inversion F2 as [|s ? l ? T F2']; subst. inversion F2'; subst.
    apply (recorded_next _ _ _ _ o S1 s fuel of oo origin cloud); auto. now apply scan_records.
  - apply recorded_track. now apply IH.
  - apply recorded_clear. now apply IH.
Qed.
(** A map into which something was integrated has a cell. *)
Lemma scanned_some : forall d r t m o L, map_range d r t -> scanned d r t m o L -> L <> [] -> exists c v, gm_get (om_grid o) c = Ret v.
Proof.
  intros d r t m o L M H. induction H as [o E|o L fuel of oo origin cloud o' H IH Hf Ho SK Fu E|o L x H IH|o L H IH]; intro N; [now elim N| |now apply IH|now apply IH].
  destruct (scanned_facts _ _ _ _ _ _ H) as [_ Rg]. destruct SK as (_ & _ & _ & _ & SK). destruct (om_integrate_spec _ _ _ _ _ _ _ E) as [E' _].
  destruct (wf_of_reachable _ _ _ _ M Rg) as [cb W]. pose proof (wf_storage _ _ _ _ _ W) as St.
  destruct (integrate_spec _ _ _ _ _ _ _ _ Hf Ho St E') as (g1 & free & occ & E3 & _ & _ & S' & Sh & _).
  destruct (SK g1 E3) as [I _]. rewrite <- Sh in I. exists (gm_cell_from_point g1 origin). apply (gm_get_iff (om_grid o') _ S'); [exact (GridProofs.range_isize _ _ (proj1 S') I)|exact I].
Qed.

Lemma nth_mod_in : forall (A : Type) (l : list A) k x, l <> [] -> In (nth (k mod length l) l x) l.
Proof. intros A l k x N. apply nth_In. apply Nat.mod_upper_bound. destruct l; [congruence|discriminate]. Qed.

Section Tour.
Context (rec : recording) (d : nat) (r : f32) (t : Z) (m : lidar) (o : occ_map)
        (st : nat -> state) (th : nat -> thread) (ev : nat -> list event) (S : list exact_scan) (wall : cell -> Prop).
Context (RO : recording_ok d r t rec).
Context (Pm : fltb f0 (max_range m) = true) (Fm : finite (max_range m)) (Bm : (real (max_range m) <= 1048576 * real r)%R).
Context (SG : signs_ok m) (T1 : fle f0 (occupied_threshold_logodds m)) (T2 : fltb (occupied_threshold_logodds m) (evidence m f0 true) = true).
Context (TA : Forall2 (taken_at d (max_range m) r) S (combine (origins rec) (clouds rec))).
Context (SE : Forall (sees d (real (max_range m)) (real r) wall) S).

Lemma tour_limit : limit_near (max_range m) r. Proof. right. split; [exact Fm|exact Bm]. Qed.
Lemma tour_length : length S = length (clouds rec) /\ S <> [].
Proof.
  destruct RO as ((RL & RN) & _). pose proof (Forall2_length _ _ _ TA) as L. rewrite combine_length, RL, Nat.min_id in L. split; [exact L|].
  intros ->. destruct (clouds rec); [contradiction|discriminate L].
Qed.
(** The map of a reachable state is that of the scans in turn. *)
Lemma tour_map : forall tr s, reaches rec d m r t tr s -> exists L,
  scanned d r t m (grid s) L /\ length L = integrations tr /\
  SpecWorld.recorded d r t m (grid s) (map (fun k => nth (k mod length S) S ([], [])) (seq 0 (length L))).
Proof.
  intros tr s Re. destruct tour_length as [LS NS]. destruct (program_map rec d r t m _ _ RO tour_limit Re) as (L & rest & ST & LI & _ & SC).
  exists L. split; [exact SC|]. split; [exact LI|]. apply (scanned_recorded _ _ _ _ _ _ SC).
  assert (G : forall k p, nth_error L k = Some p -> taken_at d (max_range m) r (nth (k mod length S) S ([], [])) p).
  { intros k [oo c] Hk. destruct (cyclic_run rec d m r t _ _ k oo c (proj1 RO) Re) as [C1 C2].
    - rewrite ST. rewrite nth_error_app1; [exact Hk|]. apply nth_error_Some. congruence.
    - rewrite <- LS in C1, C2. apply (Forall2_nth_error _ _ _ _ _ (k mod length S) _ _ TA); [|now apply nth_error_combine].
      apply nth_error_nth'. apply Nat.mod_upper_bound. destruct S; [congruence|discriminate]. }
  clear - G. assert (H : forall a, (forall k p, nth_error L k = Some p -> taken_at d (max_range m) r (nth ((a + k) mod length S) S ([], [])) p) ->
    Forall2 (taken_at d (max_range m) r) (map (fun k => nth (k mod length S) S ([], [])) (seq a (length L))) L).
  { clear G. induction L as [|p L IH]; intros a G; cbn [length seq map]; constructor.
    - specialize (G 0%nat p eq_refl). now rewrite Nat.add_0_r in G.
    - apply IH. intros k p' K. specialize (G (Datatypes.S k) p' K). now rewrite Nat.add_succ_r in G. }
  apply H. exact G.
Qed.
(** Nothing but the walls is ever occupied. *)
Lemma tour_state : forall tr s, reaches rec d m r t tr s -> exists cb, covers_cells d r t (om_grid (grid s)) cb /\
  forall w, length w = d ->
    (tour_hits d (real (max_range m)) (real r) (firstn (integrations tr) S) w -> wall w /\ in_box cb w) /\
    (in_box cb w -> exists b, om_occupied (grid s) (map2 Z.sub w (cmin cb)) = Ret b /\ (b = true <-> tour_hits d (real (max_range m)) (real r) (firstn (integrations tr) S) w)).
Proof.
  intros tr s Re. destruct tour_length as [LS NS]. destruct (tour_map tr s Re) as (L & SC & LI & RE).
  assert (SE' : Forall (sees d (real (max_range m)) (real r) wall) (map (fun k => nth (k mod length S) S ([], [])) (seq 0 (length L)))).
  { apply Forall_forall. intros x Hx. apply in_map_iff in Hx. destruct Hx as (k & <- & _). rewrite Forall_forall in SE. apply SE. now apply nth_mod_in. }
  pose proof RO as (_ & M & _).
  destruct (walled_occupied d r t m _ _ wall M Pm Fm Bm SG T1 T2 RE SE') as (cb & C & W). exists cb. split; [exact C|].
  intros w Lw. destruct (W w Lw) as [W1 W2]. unfold tour_hits.
  assert (Q : forall x, In x (map (fun k => nth (k mod length S) S ([], [])) (seq 0 (length L))) <-> In x (firstn (integrations tr) S)).
  { intro x. rewrite in_map_iff, <- LI. split.
    - intros (k & <- & Hk). apply in_seq in Hk. assert (Hm : (k mod length S < length S)%nat) by (apply Nat.mod_upper_bound; destruct S; [congruence|discriminate]).
      assert (Hl : (k mod length S <= k)%nat) by (apply Nat.mod_le; destruct S; [congruence|discriminate]).
      assert (Z : nth_error (firstn (length L) S) (k mod length S) = nth_error S (k mod length S)).
      { clear - Hk Hl. assert (H : (k mod length S < length L)%nat) by lia. revert H. generalize (k mod length S)%nat, (length L). clear. intros i n. revert i n. induction S as [|a l IH]; intros [|i] [|n] H; try lia; try reflexivity. cbn [firstn nth_error]. apply IH. lia. }
      rewrite (nth_error_nth' S ([], []) Hm) in Z. exact (nth_error_In _ _ Z).
    - intro Hx. apply In_nth_error in Hx. destruct Hx as (k & Hk). assert (Lk : (k < length (firstn (length L) S))%nat) by (apply nth_error_Some; congruence).
      rewrite firstn_length in Lk. exists k. split; [|apply in_seq; lia]. rewrite Nat.mod_small by lia.
      assert (Z : nth_error S k = Some x). { rewrite <- (firstn_skipn (length L) S). rewrite nth_error_app1; [exact Hk|]. rewrite firstn_length. lia. }
      exact (nth_error_nth _ _ _ Z). }
  split.
  - intros (s0 & Hs & A). apply W1. exists s0. split; [now apply Q|exact A].
  - intro B. destruct (W2 B) as (b & Eb & Hb). exists b. split; [exact Eb|]. rewrite Hb.
    split; intros (s0 & Hs & A); exists s0; (split; [now apply Q|exact A]).
Qed.

Context (FL : first_lowest rec) (E : om_new d m r t = Ret o) (X : execution rec o st th ev) (Fa : fair rec st th).

(** ... and from some time on the display shows exactly the walls that some scan hits. *)
Lemma tour_displayed : exists N, forall n, (N <= n)%nat -> exists cb, covers_cells d r t (om_grid (grid (st n))) cb /\
  (forall w, length w = d -> (tour_hits d (real (max_range m)) (real r) S w <-> exists p, In (map2 Z.sub w (cmin cb), p) (tracked (st n)))) /\
  (forall c p, In (c, p) (tracked (st n)) -> in_box cb (map2 Z.add (cmin cb) c) /\ wall (map2 Z.add (cmin cb) c) /\ near_cell r (map2 Z.add (cmin cb) c) p) /\
  NoDup (map fst (tracked (st n))).
Proof.
  pose proof tour_limit as HM. destruct tour_length as [LS NS]. pose proof RO as (R & M & _ & _ & FO). pose proof (proj1 (proj2 M)) as HR.
  assert (CK : forall n, corner_kept (observed_until ev n)).
  { intro n. apply (corner_static rec d r t m _ (st n) RO HM FL). now apply (exec_reaches rec d m r t o st th ev n E X). }
  assert (TN : fltb (occupied_threshold_logodds m) f0 = false).
  { destruct (fltb (occupied_threshold_logodds m) f0) eqn:Q; [|reflexivity]. pose proof (flt_fle_trans _ _ _ Q T1) as Z0. apply fltb_iff in Z0. destruct Z0 as (_ & _ & Z0). lra. }
  destruct (live rec d r t m o st th ev RO HM E X Fa (length S)) as (N & HN).
  assert (Re : forall n, reaches rec d m r t (observed_until ev n) (st n)) by (intro n; exact (exec_reaches rec d m r t o st th ev n E X)).
  assert (Full : forall n, (N <= n)%nat -> firstn (integrations (observed_until ev n)) S = S).
  { intros n Hn. apply firstn_all2. pose proof (until_mono ev N n Hn). lia. }
  assert (get : forall n, (N <= n)%nat -> exists c v, gm_get (om_grid (grid (st n))) c = Ret v).
  { intros n Hn. destruct (tour_map _ _ (Re n)) as (L & SC & LI & _). apply (scanned_some _ _ _ _ _ _ M SC). intros ->. cbn [length] in LI.
    pose proof (until_mono ev N n Hn). destruct S; [congruence|]. cbn [length] in HN. lia. }
  assert (Bm' : forall n, (N <= n)%nat -> bmin (gm_bounds (om_grid (grid (st n)))) = bmin (gm_bounds (om_grid (grid (st N))))).
  { intros n Hn. induction Hn as [|n Hn IH]; [reflexivity|]. rewrite <- IH. destruct (exec_inv rec d r t m o st th ev RO HM E X n) as [I _], (exec_inv rec d r t m o st th ev RO HM E X (Datatypes.S n)) as [_ P].
    apply (step_corner rec (st n) (th n) (ev n)); try assumption.
    - apply (p_alive _ _ _ _ _ _ P).
    - apply (ex_step _ _ _ _ _ X).
    - intros x y Hin. apply (CK (Datatypes.S n)). cbn [observed_until]. apply in_or_app. now right.
    - now apply get. }
  destruct (tour_state _ _ (Re N)) as (cb0 & C0 & W0).
  assert (K0 : forall n, (N <= n)%nat -> exists cb, covers_cells d r t (om_grid (grid (st n))) cb /\ cmin cb = cmin cb0 /\
    forall w, length w = d -> (tour_hits d (real (max_range m)) (real r) S w -> wall w /\ in_box cb w) /\
      (in_box cb w -> exists b, om_occupied (grid (st n)) (map2 Z.sub w (cmin cb)) = Ret b /\ (b = true <-> tour_hits d (real (max_range m)) (real r) S w))).
  { intros n Hn. destruct (tour_state _ _ (Re n)) as (cb & C & W). rewrite (Full n Hn) in W. exists cb. split; [exact C|]. split; [|exact W].
    clear - C C0 Bm' Hn HR. destruct C as [_ _ _ _ [N1 _] V1 _ _ _], C0 as [_ _ _ _ [N1' _] V1' _ _ _]. rewrite (Bm' n Hn) in V1. exact (at_cell_unique r _ _ _ HR N1 N1' V1 V1'). }
  assert (RQ : Forall (fun c => request_ok d r (pc_bounds c)) (clouds rec)).
  { apply Forall_forall. intros cl Hcl. apply (In_nth_error) in Hcl. destruct Hcl as (i & Hi).
    destruct (nth_error (origins rec) i) as [oo|] eqn:Ho.
    - rewrite Forall_forall in FO. specialize (FO _ (combine_nth rec i oo cl Ho Hi)). exact (frame_request d r oo cl HR FO).
    - exfalso. apply nth_error_None in Ho. assert (i < length (clouds rec))%nat by (apply nth_error_Some; congruence). destruct R as [RL _]. lia. }
  assert (SH : forall n, Shown d r t m (st n)).
  { intro n. apply (shown_run rec d r t m _ (st n) R M RQ TN (Re n) (CK n)). destruct (exec_inv rec d r t m o st th ev RO HM E X n) as [_ P]. apply (p_alive _ _ _ _ _ _ P). }
  assert (DR : forall n, render (st n) = RUnlockGrid -> forall c, cells_in_isize c -> In c (map fst (tracked (st n))) <-> om_occupied (grid (st n)) c = Ret true).
  { intros n Hr c Ic. destruct (program_safe rec d r t m _ _ RO HM (Re n)) as [NP _].
    destruct (display_right rec d r t m _ _ R M RQ TN (Re n) (CK n) NP) as (_ & _ & _ & D3). destruct (D3 Hr) as [Z1 Z2].
    apply (d_agree _ _ _ _ _ (SH n)); [exact Ic|rewrite Z1; now intros []|rewrite Z2; now intros []]. }
  assert (box : forall n cb w, covers_cells d r t (om_grid (grid (st n))) cb -> in_box cb w -> in_range (nd_shape (gm_data (om_grid (grid (st n))))) (map2 Z.sub w (cmin cb))).
  { intros n cb w C B. pose proof C as [_ _ (L1 & L2 & _) _ _ _ _ Vs St]. apply box_range in B; [|congruence]. destruct B as [_ B]. rewrite <- Vs in B. exact B. }
  assert (unbox : forall n cb c, covers_cells d r t (om_grid (grid (st n))) cb -> cells_in_isize c -> om_occupied (grid (st n)) c = Ret true ->
    in_box cb (map2 Z.add (cmin cb) c) /\ length c = d /\ map2 Z.sub (map2 Z.add (cmin cb) c) (cmin cb) = c).
  { intros n cb c C Ic O. unfold om_occupied, occupied in O. destruct (gm_get (om_grid (grid (st n))) c) as [v| |] eqn:G; try discriminate O.
    apply (gm_get_range _ _ _ (cc_storage _ _ _ _ _ C) Ic) in G. pose proof C as [_ _ (L1 & L2 & _) _ _ _ _ Vs St]. rewrite Vs in G.
    assert (Lc : length c = d). { apply Forall2_length in G. unfold cell in *. rewrite map2_length in G by congruence. congruence. }
    assert (A : map2 Z.sub (map2 Z.add (cmin cb) c) (cmin cb) = c).
    { apply sub_of_add. unfold cell in *. congruence. }
    split; [|auto]. apply box_range; [congruence|]. rewrite A. split; [unfold cell in *; rewrite map2_length by congruence; congruence|exact G]. }
  assert (U : forall n, (N <= n)%nat -> render (st n) = RUnlockGrid ->
    (forall w, length w = d -> tour_hits d (real (max_range m)) (real r) S w <-> In (map2 Z.sub w (cmin cb0)) (map fst (tracked (st n)))) /\
    (forall c, In c (map fst (tracked (st n))) -> length c = d /\ map2 Z.sub (map2 Z.add (cmin cb0) c) (cmin cb0) = c)).
  { intros n Hn Hr. destruct (K0 n Hn) as (cb & C & Ec & W). rewrite <- Ec. split.
    - intros w Lw. destruct (W w Lw) as [W1 W2]. split.
      + intro H. destruct (W1 H) as [_ B]. destruct (W2 B) as (b & Eb & Hb). rewrite (proj2 Hb H) in Eb. apply (DR n Hr); [|exact Eb].
        exact (GridProofs.range_isize _ _ (proj1 (cc_storage _ _ _ _ _ C)) (box n cb w C B)).
      + intro H. pose proof (d_isize _ _ _ _ _ (SH n) _ H) as Ic. apply (DR n Hr _ Ic) in H. destruct (unbox n cb _ C Ic H) as (B & _ & _).
        assert (Aw : map2 Z.add (cmin cb) (map2 Z.sub w (cmin cb)) = w) by (apply box_add; rewrite Lw; symmetry; apply (cc_ordered _ _ _ _ _ C)).
        rewrite Aw in B. destruct (W2 B) as (b & Eb & Hb). apply Hb. rewrite H in Eb. now injection Eb.
    - intros c H. pose proof (d_isize _ _ _ _ _ (SH n) _ H) as Ic. apply (DR n Hr _ Ic) in H. apply (unbox n cb _ C Ic H). }
  destruct (again_consumes rec d r t m o st th ev RO HM E X Fa N) as (k & Hk & (l & El) & Ek).
  assert (Er : render (st (Datatypes.S k)) = RUnlockGrid).
  { pose proof (ex_step _ _ _ _ _ X k) as St. rewrite El in St. clear - St Ek. inversion St as [e s' H|newer w0 older e pc s' Ew H]; subst.
    - destruct (st k); destruct (st (Datatypes.S k)); inversion H; subst; fields; congruence.
    - inversion H. }
  assert (K : forall n, (Datatypes.S k <= n)%nat ->
    (forall w, length w = d -> tour_hits d (real (max_range m)) (real r) S w <-> In (map2 Z.sub w (cmin cb0)) (map fst (tracked (st n)))) /\
    (forall c, In c (map fst (tracked (st n))) -> length c = d /\ map2 Z.sub (map2 Z.add (cmin cb0) c) (cmin cb0) = c)).
  { intros n Hn. induction Hn as [|n Hn IH]; [apply U; [lia|exact Er]|].
    destruct (step_tracked _ _ _ _ _ (ex_step _ _ _ _ _ X n)) as [Et|Et]; [now rewrite Et|]. apply U; [lia|exact Et]. }
  exists (Datatypes.S k). intros n Hn. destruct (K0 n ltac:(lia)) as (cb & C & Ec & W). destruct (K n Hn) as [K1 K2]. rewrite <- Ec in K1, K2. exists cb. split; [exact C|]. split; [|split; [|apply (d_nodup _ _ _ _ _ (SH n))]].
  - intros w Lw. rewrite (K1 w Lw), in_map_iff. split.
    + intros [[c p] [Q1 Q2]]. cbn [fst] in Q1. subst c. now exists p.
    + intros [p Q]. now exists (map2 Z.sub w (cmin cb), p).
  - intros c p Hc. assert (Hc' : In c (map fst (tracked (st n)))) by (apply in_map_iff; now exists (c, p)). destruct (K2 c Hc') as [Lc A].
    assert (Lw : length (map2 Z.add (cmin cb) c) = d) by (pose proof (proj1 (cc_ordered _ _ _ _ _ C)); unfold cell in *; rewrite map2_length; congruence).
    destruct (W _ Lw) as [W1 _]. destruct (W1 (proj2 (K1 _ Lw) ltac:(rewrite A; exact Hc'))) as [Wl B]. split; [exact B|]. split; [exact Wl|].
    rewrite (d_points _ _ _ _ _ (SH n) c p Hc). apply (cells_near d r t _ cb c M); [apply (covers_wf d r t _ _ M (d_reachable _ _ _ _ _ (SH n)) C)|].
    pose proof (box n cb _ C B) as I. rewrite A in I. exact I.
Qed.
End Tour.
