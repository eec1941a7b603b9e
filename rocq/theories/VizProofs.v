(** Proofs about the threads of the visualiser. *)
From Coq Require Import ZArith List Bool Reals Lia Permutation.
From Flocq Require Import Core BinarySingleNaN.
From Verif Require Import Base F32 Arith Geom NdArray GridMap RayCaster NoiseModel Spec SpecMap SpecNoise GridProofs ExpandProofs MapProofs NoiseProofs Viz SpecViz.
Open Scope Z_scope.

(** ** The invariant *)
(** Where the newest worker is; all others are done. *)
Definition cur (s : state) : wpc := match workers s with [] => WDone | w :: _ => w_pc w end.
Definition num (s : state) : nat := length (tl (workers s)).

Definition phase_ok (r : rpc) (c : wpc) : bool :=
  match c, r with
  | WDone, RPanicked => false
  | WDone, _ => true
  | WUnlockGrid, (RIndex | RDraw | RLoad | RLockReports | RLockGrid) => true
  | WUnlockGrid, _ => false
  | _, (RIndex | RDraw | RLoad) => true
  | _, _ => false
  end.
Definition finished_at (r : rpc) (c : wpc) : bool :=
  match c, r with
  | WDone, RSpawn => false
  | WDone, _ => true
  | WUnlockGrid, _ => true
  | _, _ => false
  end.
Definition grid_lock_at (r : rpc) (c : wpc) (k : nat) : mutex :=
  match c, r with
  | WDone, (RConsume | RUnlockGrid) => held_by Render
  | WDone, _ => free_mutex
  | WLockGrid, _ => free_mutex
  | WPanicked, _ => poisoned_mutex
  | _, _ => held_by (Worker k)
  end.
Definition reports_lock_at (r : rpc) (c : wpc) (k : nat) : mutex :=
  match c, r with
  | (WReport | WUnlockReports), _ => held_by (Worker k)
  | _, (RLockGrid | RConsume | RUnlockGrid | RUnlockReports) => held_by Render
  | _, _ => free_mutex
  end.
(** Are the reported cells still to be consumed, the recorded cells to be reported? *)
Definition no_reports (r : rpc) (c : wpc) : bool :=
  match c, r with
  | WDone, (RUnlockGrid | RUnlockReports | RStore | RSpawn) => true
  | (WLockGrid | WTrack | WIntegrate | WLockReports | WReport | WPanicked), _ => true
  | _, _ => false
  end.
Definition no_changes (c : wpc) : bool :=
  match c with WLockReports | WReport | WUnlockReports | WClear | WPanicked => false | _ => true end.
Definition tracking (c : wpc) : bool :=
  match c with WIntegrate | WLockReports | WReport | WUnlockReports | WClear | WUntrack => true | _ => false end.

Definition readable (g : grid_map f32) (c : cell) : Prop := cells_in_isize c /\ exists v, gm_get g c = Ret v.

Record Inv (rec : recording) (s : state) : Prop := {
  i_others : Forall (fun w => w_pc w = WDone) (tl (workers s));
  i_phase : phase_ok (render s) (cur s) = true;
  i_finished : finished s = finished_at (render s) (cur s);
  i_grid_lock : grid_lock s = grid_lock_at (render s) (cur s) (num s);
  i_reports_lock : reports_lock s = reports_lock_at (render s) (cur s) (num s);
  i_index : (index s < length (clouds rec))%nat;
  i_spawned : render s = RIndex -> workers s <> [];
  i_storage : cur s <> WPanicked -> storage_ok (gm_data (om_grid (grid s)));
  i_reports : cur s <> WPanicked -> Forall (readable (om_grid (grid s))) (reports s);
  i_changes : cur s <> WPanicked -> Forall (readable (om_grid (grid s))) (gm_changed_cells (om_grid (grid s)));
  i_no_reports : no_reports (render s) (cur s) = true -> reports s = [];
  i_no_changes : no_changes (cur s) = true -> gm_changed_cells (om_grid (grid s)) = [];
  i_same : cur s = WUnlockReports \/ cur s = WClear -> reports s = gm_changed_cells (om_grid (grid s));
  i_tracking : tracking (cur s) = true -> gm_track_changes (om_grid (grid s)) = true
}.

Lemma new_facts : forall d m r t o, om_new d m r t = Ret o ->
  storage_ok (gm_data (om_grid o)) /\ gm_changed_cells (om_grid o) = [] /\ om_model o = m /\ gm_track_changes (om_grid o) = false.
Proof.
  intros d m r t o E. unfold om_new in E. destruct (gm_new _ _ _ _) as [g| |] eqn:G; try discriminate. cbn [obind] in E. injection E as <-.
  cbn [om_grid om_model]. split; [eapply new_storage_ok; exact G|]. unfold gm_new in G. destruct (ndarray_with_bounds _ _ _); try discriminate.
  cbn [obind] in G. injection G as <-. auto.
Qed.

Lemma inv_initial : forall rec d m r t o, recorded rec -> om_new d m r t = Ret o -> Inv rec (initial o).
Proof.
  intros rec d m r t o [_ N] E. destruct (new_facts _ _ _ _ _ E) as (S & C & _ & T).
  constructor; cbn; auto; try discriminate.
  - destruct (clouds rec); [contradiction|cbn; lia].
  - intros _. rewrite C. constructor.
Qed.

Lemma om_integrate_spec : forall fuel of oo o p cloud o', om_integrate fuel of oo o p cloud = Ret o' ->
  integrate_point_cloud fuel of oo (om_model o) (om_grid o) p cloud = Ret (om_grid o') /\ om_model o' = om_model o.
Proof.
  intros fuel of oo o p cloud o' E. unfold om_integrate in E. destruct (integrate_point_cloud _ _ _ _ _ _ _); try discriminate.
  cbn [obind] in E. injection E as <-. auto.
Qed.

Lemma integrate_readable : forall fuel of oo o p cloud o', is_order of -> is_order oo -> storage_ok (gm_data (om_grid o)) ->
  gm_track_changes (om_grid o) = true -> gm_changed_cells (om_grid o) = [] ->
  om_integrate fuel of oo o p cloud = Ret o' ->
  storage_ok (gm_data (om_grid o')) /\ gm_track_changes (om_grid o') = true /\
  Forall (readable (om_grid o')) (gm_changed_cells (om_grid o')).
Proof.
  intros fuel of oo o p cloud o' Hf Ho S T C E. apply om_integrate_spec in E. destruct E as [E _].
  destruct (integrate_spec _ _ _ _ _ _ _ _ Hf Ho S E) as (g1 & free & occ & _ & E2 & _ & S' & _ & _ & _ & _ & T' & Occ & Free & _ & On & _).
  destruct (On T) as (l & L & _ & In_l). split; [assumption|]. split; [congruence|]. rewrite L, C. cbn [app].
  destruct (cast_rays_isize _ _ _ _ _ _ _ _ E2) as [If Io]. rewrite Forall_forall in *. intros c Hc. apply In_l in Hc.
  split; [destruct Hc; auto|]. destruct Hc as [Hc|Hc]; [destruct (Free c Hc) as (v & _ & G)|destruct (Occ c Hc) as (v & _ & G)]; eauto.
Qed.

Lemma consume_returns : forall o l t, Forall (readable (om_grid o)) l -> exists t', consume o l t = Ret t'.
Proof.
  intros o. induction l as [|c l IH]; intros t F; cbn [consume ofold]; [eauto|]. inversion F as [|? ? [_ [v G]] F']; subst.
  unfold consume1 at 1, om_occupied, occupied. rewrite G. cbn [obind]. apply IH. assumption.
Qed.

(** A step of a worker is a step of the newest. *)
Lemma worker_newest : forall rec s newer w older ev pc s', Inv rec s -> workers s = newer ++ w :: older ->
  work s (length older) w ev pc s' -> newer = [].
Proof.
  intros rec s newer w older ev pc s' I E W. destruct newer as [|x newer]; [reflexivity|]. exfalso.
  pose proof (i_others _ _ I) as F. rewrite E in F. cbn [app tl] in F. apply Forall_app in F. destruct F as [_ F]. inversion F as [|? ? D _]; subst.
  destruct W; congruence.
Qed.

Ltac facts I := destruct I as [IO IP IF IG IR II IN IS IRe ICh INR INC ISa IT].
Ltac fields := cbn [grid grid_lock reports reports_lock finished index tracked render workers set_render set_grid_lock set_reports_lock
  set_reports set_tracked set_finished set_index set_workers set_grid owner poisoned held_by free_mutex poisoned_mutex] in *.

Lemma inv_render : forall rec s ev s', recorded rec -> Inv rec s -> render_step rec s ev s' -> Inv rec s'.
Proof.
  intros rec s ev s' [RL RN] I H. facts I. unfold cur, num in *. destruct s as [g gl re rl fi ix tr rp ws]. fields.
  destruct H; fields; subst rp;
  (destruct ws as [|w ws]; fields; [|destruct w as [wo wc pc]; fields; cbn [w_pc] in *; destruct pc; try discriminate IP]);
  cbn [finished_at grid_lock_at reports_lock_at tl length] in *; subst fi gl rl; fields; try discriminate; try congruence;
  try (constructor; unfold cur, num; fields; cbn [tl length w_pc] in *; auto; try discriminate; try congruence;
       try (intros _; constructor); try (intros [?|?]; discriminate); fail).
  all: try (exfalso; destruct (consume_returns g re tr (IRe ltac:(discriminate))) as [t' Et]; congruence).
  all: try (exfalso; match goal with N : nth_error _ _ = None |- _ => apply nth_error_None in N; lia
      | N : _ \/ _ |- _ => destruct N as [N|N]; apply nth_error_None in N; lia end).
  all: try (constructor; unfold cur, num; fields; cbn [tl length w_pc] in *; auto; try discriminate; try congruence;
       try (intros _; constructor); try (intros [?|?]; discriminate); try (apply Nat.mod_upper_bound; assumption);
       try (constructor; [reflexivity|assumption]); fail).
  all: specialize (IS ltac:(discriminate)); specialize (IRe ltac:(discriminate)); specialize (ICh ltac:(discriminate));
       specialize (INR eq_refl); specialize (INC eq_refl);
       constructor; unfold cur, num; fields; cbn [tl length w_pc] in *; auto; try discriminate.
  all: try (constructor; [reflexivity|assumption]); intros [?|?]; discriminate.
Qed.

Lemma inv_worker : forall rec s w older ev pc s', recorded rec -> Inv rec s -> workers s = w :: older ->
  work s (length older) w ev pc s' -> Inv rec (set_workers s' (at_pc w pc :: older)).
Proof.
  intros rec s w older ev pc s' [RL RN] I Ew H. facts I. unfold cur, num in *. destruct s as [g gl re rl fi ix tr rp ws]. fields. subst ws.
  destruct w as [wo wc wpc]. cbn [tl w_pc length] in *.
  destruct H; cbn [w_pc w_origin w_cloud] in *; subst wpc; fields; destruct rp; try discriminate IP;
  cbn [finished_at grid_lock_at reports_lock_at] in *; subst fi gl rl; fields; try discriminate; try congruence;
  specialize (IS ltac:(discriminate)); specialize (IRe ltac:(discriminate)); specialize (ICh ltac:(discriminate));
  try (specialize (INR eq_refl)); try (specialize (INC eq_refl)); try (specialize (IT eq_refl)); 
  try (constructor; unfold cur, num; fields; cbn [tl length w_pc at_pc om_grid track clear gm_set_track_changes gm_clear_changed_cells gm_data gm_changed_cells gm_track_changes] in *; auto; try discriminate; try congruence;
       try (intros _; constructor); try (intros [?|?]; discriminate); fail).
  all: destruct (integrate_readable _ _ _ _ _ _ _ H0 H1 IS IT INC H2) as (S' & T' & F');
       constructor; unfold cur, num; fields; cbn [tl length w_pc at_pc]; auto; try discriminate;
       try (rewrite INR; constructor); intros [?|?]; discriminate.
Qed.

Lemma inv_step : forall rec s t ev s', recorded rec -> Inv rec s -> step rec s t ev s' -> Inv rec s'.
Proof.
  intros rec s t ev s' R I H. destruct H as [ev s' H|newer w older ev pc s' E H].
  - eapply inv_render; eassumption.
  - pose proof (worker_newest _ _ _ _ _ _ _ _ I E H) as ->. cbn [app] in *. eapply inv_worker; eassumption.
Qed.
Lemma inv_run : forall rec s tr s', recorded rec -> Inv rec s -> run rec s tr s' -> Inv rec s'.
Proof. intros rec s tr s' R I H. induction H; [assumption|]. eapply inv_step; eassumption. Qed.
Lemma inv_reaches : forall rec d m r t tr s, recorded rec -> reaches rec d m r t tr s -> Inv rec s.
Proof. intros rec d m r t tr s R (o & E & H). eapply inv_run; [eassumption| |eassumption]. eapply inv_initial; eassumption. Qed.

(** ** Progress *)
Lemma render_moves : forall rec s, recorded rec -> Inv rec s -> cur s <> WUnlockGrid \/ render s <> RLockGrid -> moves rec Render s.
Proof.
  intros rec s [RL RN] I H. facts I. unfold cur, num in *.
  assert (X : exists ev s', render_step rec s ev s').
  { destruct (render s) eqn:Er.
    - destruct (finished s) eqn:Ef; eexists _, _; [now apply r_ready|now apply r_busy].
    - eexists _, _. apply r_lock_reports; [assumption| |]; rewrite IR; destruct (match workers s with [] => _ | _ => _ end); try reflexivity; discriminate.
    - eexists _, _. apply r_lock_grid; [assumption| |]; rewrite IG; destruct (match workers s with [] => _ | _ => _ end); try reflexivity; try discriminate; destruct H; congruence.
    - destruct (consume_returns (grid s) (reports s) (tracked s)) as [t' Et].
      { apply IRe. intro K. rewrite K in IP. discriminate. }
      eexists _, _. eapply r_consume; eassumption.
    - eexists _, _. now apply r_unlock_grid.
    - eexists _, _. now apply r_unlock_reports.
    - eexists _, _. now apply r_store.
    - destruct (nth_error (origins rec) (index s)) as [o|] eqn:Eo; [|apply nth_error_None in Eo; lia].
      destruct (nth_error (clouds rec) (index s)) as [c|] eqn:Ec; [|apply nth_error_None in Ec; lia].
      eexists _, _. eapply r_spawn; eassumption.
    - eexists _, _. apply r_index; [assumption|lia].
    - eexists _, _. apply r_draw; [assumption|]. rewrite nth_error_None. lia.
    - destruct (match workers s with [] => _ | _ => _ end); discriminate. }
  destruct X as (ev & s' & X). exists ev, s'. now apply s_render.
Qed.

Lemma never_panics : forall rec s, Inv rec s -> render s <> RPanicked.
Proof. intros rec s I E. pose proof (i_phase _ _ I) as P. rewrite E in P. now destruct (cur s). Qed.

Lemma worker_moves : forall rec s w, Inv rec s -> In w (workers s) -> alive w = true -> w_pc w <> WIntegrate ->
  exists k, moves rec (Worker k) s.
Proof.
  intros rec s w I Hin A NI. facts I. unfold cur, num in *. destruct (workers s) as [|w0 ws] eqn:Ew; [contradiction|]. cbn [tl] in *.
  destruct Hin as [<-|Hin]; [|rewrite Forall_forall in IO; rewrite (IO w Hin) in *; unfold alive in A; rewrite (IO w Hin) in A; discriminate].
  assert (X : exists ev pc s', work s (length ws) w0 ev pc s').
  { destruct (w_pc w0) eqn:Ep; unfold alive in A; rewrite Ep in A; try discriminate; try congruence.
    - eexists _, _, _. apply w_lock_grid; [assumption| |]; rewrite IG; reflexivity.
    - eexists _, _, _. now apply w_track.
    - eexists _, _, _. apply w_lock_reports; [assumption| |]; rewrite IR; destruct (render s); try discriminate; reflexivity.
    - eexists _, _, _. now apply w_report.
    - eexists _, _, _. now apply w_unlock_reports.
    - eexists _, _, _. now apply w_clear.
    - eexists _, _, _. now apply w_untrack.
    - eexists _, _, _. now apply w_store.
    - eexists _, _, _. now apply w_unlock_grid. }
  destruct X as (ev & pc & s' & X). exists (length ws), ev, (set_workers s' ([] ++ at_pc w0 pc :: ws)). now apply s_worker.
Qed.

Lemma alive_newest : forall rec s newer w older, Inv rec s -> workers s = newer ++ w :: older -> alive w = true -> newer = [].
Proof.
  intros rec s newer w older I E A. pose proof (i_others _ _ I) as IO. destruct newer as [|w0 newer]; [reflexivity|exfalso].
  rewrite E in IO. cbn [app tl] in IO. rewrite Forall_forall in IO. assert (Hin : In w (newer ++ w :: older)) by (apply in_or_app; right; now left).
  unfold alive in A. rewrite (IO w Hin) in A. discriminate.
Qed.
Lemma worker_moves_at : forall rec s newer w older, Inv rec s -> workers s = newer ++ w :: older -> alive w = true -> w_pc w <> WIntegrate ->
  moves rec (Worker (length older)) s.
Proof.
  intros rec s newer w older I E A NI. pose proof (alive_newest _ _ _ _ _ I E A) as ->. cbn [app] in E.
  destruct (worker_moves rec s w I) as (k & ev & s' & St); try assumption; [rewrite E; now left|].
  exists ev, s'. inversion St as [|newer w' older' ? pc s1 E' Wk]; subst. pose proof (worker_newest _ _ _ _ _ _ _ _ I E' Wk) as ->.
  rewrite E in E'. injection E' as <- <-. exact St.
Qed.
Lemma no_deadlock : forall rec d m r t tr s, recorded rec -> reaches rec d m r t tr s ->
  render s <> RPanicked /\
  (moves rec Render s \/
   ((exists k, moves rec (Worker k) s) /\ forall th ev s', step rec s th ev s' -> moves rec Render s')) /\
  (forall newer w older, workers s = newer ++ w :: older -> alive w = true -> w_pc w <> WIntegrate -> moves rec (Worker (length older)) s).
Proof.
  intros rec d m r t tr s R H. pose proof (inv_reaches _ _ _ _ _ _ _ R H) as I.
  split; [eapply never_panics; eassumption|]. split; [|intros newer w older; now apply worker_moves_at].
  destruct (Classical_Prop.classic (cur s <> WUnlockGrid \/ render s <> RLockGrid)) as [K|K]; [left; now apply render_moves|right].
  assert (K1 : cur s = WUnlockGrid) by (destruct (cur s); try reflexivity; exfalso; apply K; left; discriminate).
  assert (K2 : render s = RLockGrid) by (destruct (render s); try reflexivity; exfalso; apply K; right; discriminate). clear K.
  split.
  - unfold cur in K1. destruct (workers s) as [|w ws] eqn:Ew; [discriminate|]. apply (worker_moves rec s w I); rewrite ?Ew, ?K1; [now left| |discriminate].
    unfold alive. now rewrite K1.
  - intros th ev s' St. pose proof (inv_step _ _ _ _ _ R I St) as I'. apply render_moves; try assumption. left.
    unfold cur in K1. destruct St as [ev s' St|newer w older ev pc s' E St].
    + exfalso. pose proof (i_grid_lock _ _ I) as IG. rewrite K2 in IG. unfold cur, num in IG. destruct (workers s) as [|w ws]; [discriminate|]. rewrite K1 in IG.
      destruct St; try congruence; rewrite IG in *; discriminate.
    + pose proof (worker_newest _ _ _ _ _ _ _ _ I E St) as ->. cbn [app] in *. rewrite E in K1. destruct St; try congruence. discriminate.
Qed.

(** ** Frames keep coming *)
Definition rank (r : rpc) : nat :=
  match r with
  | RPanicked => 0 | RDraw => 1 | RIndex => 2 | RSpawn => 3 | RStore => 4 | RUnlockReports => 5 | RUnlockGrid => 6
  | RConsume => 7 | RLockGrid => 8 | RLockReports => 9 | RLoad => 10
  end%nat.
Lemma rank_step : forall rec s ev s', render_step rec s ev s' -> existsb is_frame ev = false -> (rank (render s') < rank (render s))%nat.
Proof. intros rec s ev s' H N. destruct H; fields; try discriminate; rewrite H; cbn [rank]; lia. Qed.
Lemma worker_render : forall s k w ev pc s', work s k w ev pc s' -> render s' = render s /\ workers s' = workers s.
Proof. intros s k w ev pc s' H. destruct H; auto. Qed.
Lemma quiet_rank : forall rec n s s', quiet rec n s s' -> (n + rank (render s') <= rank (render s))%nat.
Proof.
  intros rec n s s' H. induction H as [s|n s s1 ev s2 H IH St N|n s s1 k ev s2 H IH St]; [lia| |].
  - inversion St as [? ? St'|]; subst. pose proof (rank_step _ _ _ _ St' N). lia.
  - inversion St as [|newer w older ? pc s' E St']; subst. apply worker_render in St'. cbn [set_workers render]. destruct St' as [-> _]. lia.
Qed.
Lemma frames_keep_coming : forall rec n s s', quiet rec n s s' -> (n <= 10)%nat.
Proof. intros rec n s s' H. apply quiet_rank in H. destruct (render s); cbn [rank] in H; lia. Qed.

(** ** The protocol *)
Definition stage_of (s : state) : stage :=
  match cur s with
  | WDone => match render s with RUnlockGrid | RUnlockReports | RStore | RSpawn => Consumed | _ => Reported (reports s) end
  | WLockGrid | WTrack | WIntegrate | WPanicked => Started
  | WLockReports | WReport => Integrated (grid s)
  | _ => Reported (reports s)
  end.

Lemma protocol_nil : forall tr st st', protocol tr st -> st' = st -> protocol (tr ++ []) st'.
Proof. intros tr st st' H ->. now rewrite app_nil_r. Qed.
Lemma protocol_render : forall rec s ev s' tr, recorded rec -> Inv rec s -> render_step rec s ev s' -> protocol tr (stage_of s) -> protocol (tr ++ ev) (stage_of s').
Proof.
  intros rec s ev s' tr [RL RN] I H P. facts I. clear IO IS IRe ICh INR INC ISa IT. unfold stage_of, cur, num in *. destruct s as [g gl re rl fi ix tk rp ws]. fields.
  destruct H; fields; subst rp;
  (destruct ws as [|w ws]; fields; [|destruct w as [wo wc pc]; fields; cbn [w_pc] in *; destruct pc; try discriminate IP]);
  cbn [finished_at] in *; try discriminate; try congruence;
  try (eapply protocol_nil; [exact P|reflexivity]); try (apply p_frame; exact P); try (apply p_consume; exact P); try (apply p_spawn; exact P).
  all: exfalso; match goal with N : nth_error _ _ = None |- _ => apply nth_error_None in N; lia
      | N : _ \/ _ |- _ => destruct N as [N|N]; apply nth_error_None in N; lia | _ => apply (IN eq_refl); reflexivity end.
Qed.
Lemma protocol_worker : forall rec s w older ev pc s' tr, Inv rec s -> workers s = w :: older -> work s (length older) w ev pc s' ->
  protocol tr (stage_of s) -> protocol (tr ++ ev) (stage_of (set_workers s' (at_pc w pc :: older))).
Proof.
  intros rec s w older ev pc s' tr I Ew H P. facts I. clear IO IS IRe ICh INR INC ISa IT. unfold stage_of, cur, num in *. destruct s as [g gl re rl fi ix tk rp ws]. fields. subst ws.
  destruct w as [wo wc wpc]. cbn [tl w_pc length] in *.
  destruct H; cbn [w_pc w_origin w_cloud at_pc] in *; subst wpc; fields; destruct rp; try discriminate IP;
  cbn [grid_lock_at reports_lock_at] in *; subst gl rl; fields; try discriminate;
  try (eapply protocol_nil; [exact P|reflexivity]); try (eapply p_integrate; exact P); try (apply p_report; exact P).
Qed.
Lemma protocol_run : forall rec d m r t tr s, recorded rec -> reaches rec d m r t tr s -> protocol tr (stage_of s).
Proof.
  intros rec d m r t tr s R (o & E & H). pose proof (inv_initial _ _ _ _ _ _ R E) as I0.
  induction H as [|tr s1 th ev s2 H IH St]; [constructor|]. pose proof (inv_run _ _ _ _ R I0 H) as I.
  destruct St as [ev s2 St|newer w older ev pc s2 Ew St].
  - eapply protocol_render; eassumption.
  - pose proof (worker_newest _ _ _ _ _ _ _ _ I Ew St) as ->. cbn [app] in *. eapply protocol_worker; eassumption.
Qed.

Lemma one_worker : forall rec d m r t tr s, recorded rec -> reaches rec d m r t tr s ->
  (length (filter alive (workers s)) <= 1)%nat /\
  (exists st, protocol tr st) /\
  (render s = RSpawn -> filter alive (workers s) = []).
Proof.
  intros rec d m r t tr s R H. pose proof (inv_reaches _ _ _ _ _ _ _ R H) as I.
  assert (N : filter alive (tl (workers s)) = []).
  { pose proof (i_others _ _ I) as F. induction F as [|w ws D F IH]; [reflexivity|]. cbn [filter]. unfold alive at 1. now rewrite D. }
  split; [|split; [eexists; eapply protocol_run; eassumption|]].
  - destruct (workers s) as [|w ws]; cbn [tl filter length] in *; [lia|]. rewrite N. destruct (alive w); cbn; lia.
  - intros Er. pose proof (i_phase _ _ I) as P. rewrite Er in P. unfold cur in P. destruct (workers s) as [|w ws]; [reflexivity|]. cbn [tl filter] in *. rewrite N.
    unfold alive. destruct (w_pc w); try discriminate. reflexivity.
Qed.

(** ** A panicking worker *)
Lemma panicked_cur : forall rec s, Inv rec s -> existsb panicked (workers s) = true -> cur s = WPanicked.
Proof.
  intros rec s I H. pose proof (i_others _ _ I) as F. unfold cur. destruct (workers s) as [|w ws]; [discriminate|]. cbn [existsb tl] in *.
  apply orb_true_iff in H. destruct H as [H|H].
  - unfold panicked in H. destruct (w_pc w); congruence.
  - exfalso. apply existsb_exists in H. destruct H as (x & Hx & Px). rewrite Forall_forall in F. unfold panicked in Px. rewrite (F x Hx) in Px. discriminate.
Qed.
Lemma panicked_step : forall rec s th ev s', recorded rec -> Inv rec s -> cur s = WPanicked -> step rec s th ev s' ->
  cur s' = WPanicked /\ tracked s' = tracked s /\ Forall (eq (EFrame (tracked s))) ev.
Proof.
  intros rec s th ev s' R I C St. destruct St as [ev s' St|newer w older ev pc s' Ew St].
  - facts I. rewrite C in *. destruct St; rewrite H in *; try discriminate; fields; (split; [exact C|]); auto.
  - pose proof (worker_newest _ _ _ _ _ _ _ _ I Ew St) as ->. unfold cur in C. rewrite Ew in C. cbn [app] in C. destruct St; congruence.
Qed.
Lemma panicked_frozen : forall rec d m r t tr s tr' s', recorded rec -> reaches rec d m r t tr s -> existsb panicked (workers s) = true ->
  run rec s tr' s' -> Forall (eq (EFrame (tracked s))) tr' /\ render s' <> RPanicked /\ moves rec Render s'.
Proof.
  intros rec d m r t tr s tr' s' R H P H'. pose proof (inv_reaches _ _ _ _ _ _ _ R H) as I. pose proof (panicked_cur _ _ I P) as C.
  assert (X : cur s' = WPanicked /\ tracked s' = tracked s /\ Forall (eq (EFrame (tracked s))) tr').
  { induction H' as [|tr' s1 th ev s2 H' IH St]; [auto|]. destruct IH as (C1 & T1 & F1).
    destruct (panicked_step _ _ _ _ _ R (inv_run _ _ _ _ R I H') C1 St) as (C2 & T2 & F2). split; [assumption|]. split; [congruence|].
    apply Forall_app. split; [assumption|]. now rewrite <- T1. }
  destruct X as (C' & _ & F). pose proof (inv_run _ _ _ _ R I H') as I'. split; [assumption|]. split; [eapply never_panics; eassumption|].
  apply render_moves; try assumption. left. rewrite C'. discriminate.
Qed.

(** ** Which frames are used *)
Lemma started_app : forall a b, started (a ++ b) = started a ++ started b.
Proof. induction a as [|e a IH]; intros b; [reflexivity|]. destruct e; cbn [app started]; rewrite IH; reflexivity. Qed.
Definition spawned_now (r : rpc) : nat := match r with RIndex => 1 | _ => 0 end.
Definition cyclic (rec : recording) (tr : list event) (s : state) : Prop :=
  index s = ((length (started tr) - spawned_now (render s)) mod length (clouds rec))%nat /\
  (spawned_now (render s) <= length (started tr))%nat /\
  forall k o c, nth_error (started tr) k = Some (o, c) ->
    nth_error (origins rec) (k mod length (clouds rec)) = Some o /\ nth_error (clouds rec) (k mod length (clouds rec)) = Some c.
Lemma cyclic_step : forall rec s th ev s' tr, recorded rec -> Inv rec s -> step rec s th ev s' -> cyclic rec tr s -> cyclic rec (tr ++ ev) s'.
Proof.
  intros rec s th ev s' tr R I St (C1 & C2 & C3). unfold cyclic. rewrite started_app.
  destruct St as [ev s' St|newer w older ev pc s' Ew St].
  - destruct St; fields; rewrite H in *; cbn [spawned_now] in *; cbn [started]; rewrite ?app_nil_r; try (split; [assumption|]; split; [assumption || lia|assumption]).
    + rewrite Nat.sub_0_r in C1. rewrite app_length. cbn [length]. split; [rewrite C1; f_equal; lia|]. split; [lia|].
      intros k o' c' E. destruct (Nat.lt_ge_cases k (length (started tr))) as [K|K].
      * rewrite nth_error_app1 in E by assumption. now apply C3.
      * rewrite nth_error_app2 in E by assumption. destruct (k - length (started tr))%nat as [|j] eqn:Ej; [|destruct j; discriminate].
        injection E as <- <-. assert (k = length (started tr)) by lia. subst k. rewrite <- C1. auto.
    + split; [|split; [lia|assumption]]. rewrite C1, Nat.sub_0_r. rewrite Nat.add_mod_idemp_l by assumption. f_equal. lia.
  - assert (X : started ev = [] /\ render s' = render s /\ index s' = index s) by (destruct St; auto). destruct X as (-> & X1 & X2). fields. rewrite X1, X2, app_nil_r. auto.
Qed.
Lemma cyclic_inv : forall rec d m r t tr s, recorded rec -> reaches rec d m r t tr s -> cyclic rec tr s.
Proof.
  intros rec d m r t tr s R (o0 & E & H). pose proof (inv_initial _ _ _ _ _ _ R E) as I0.
  induction H as [|tr s1 th ev s2 H IH St].
  - split; [cbn; symmetry; apply Nat.mod_0_l; destruct R as [_ N]; destruct (clouds rec); [contradiction|discriminate]|]. split; [cbn; lia|].
    intros k' o' c' K. destruct k'; discriminate.
  - apply (cyclic_step rec s1 th ev s2 tr R); try assumption. exact (inv_run _ _ _ _ R I0 H).
Qed.
Lemma cyclic_run : forall rec d m r t tr s k o c, recorded rec -> reaches rec d m r t tr s -> nth_error (started tr) k = Some (o, c) ->
  nth_error (origins rec) (k mod length (clouds rec)) = Some o /\ nth_error (clouds rec) (k mod length (clouds rec)) = Some c.
Proof. intros rec d m r t tr s k o c R H. exact (proj2 (proj2 (cyclic_inv _ _ _ _ _ _ _ R H)) k o c). Qed.

(** ** No frames at all *)
Definition empty_ok (s : state) : Prop :=
  workers s = [] /\ reports s = [] /\
  match render s with
  | RLoad => finished s = true /\ grid_lock s = free_mutex /\ reports_lock s = free_mutex
  | RLockReports => grid_lock s = free_mutex /\ reports_lock s = free_mutex
  | RLockGrid => grid_lock s = free_mutex
  | RIndex | RDraw => False
  | _ => True
  end.
Lemma empty_step : forall rec s th ev s', clouds rec = [] -> empty_ok s -> step rec s th ev s' ->
  empty_ok s' /\ Forall (eq (EConsume [])) ev.
Proof.
  intros rec s th ev s' C (W & Re & E) St. destruct St as [ev s' St|newer w older ev pc s' Ew St]; [|rewrite W in Ew; destruct newer; discriminate].
  unfold empty_ok. destruct St; rewrite H in E; fields; rewrite ?W, ?Re; intuition (auto; try congruence).
  all: rewrite C in *; destruct (index s); discriminate.
Qed.
Lemma empty_run : forall rec d m r t tr s, clouds rec = [] -> reaches rec d m r t tr s ->
  Forall (eq (EConsume [])) tr /\ (render s = RPanicked \/ moves rec Render s).
Proof.
  intros rec d m r t tr s C (o & E & H).
  assert (X : empty_ok s /\ Forall (eq (EConsume [])) tr).
  { induction H as [|tr s1 th ev s2 H IH St]; [repeat split; constructor|]. destruct IH as [I F].
    destruct (empty_step _ _ _ _ _ C I St) as [I' F']. split; [assumption|]. now apply Forall_app. }
  destruct X as [(W & Re & X) F]. split; [assumption|]. unfold moves.
  destruct (render s) eqn:Er; try contradiction; [right|right|right|right|right|right|right|right|now left].
  - eexists _, _. apply s_render. apply r_ready; tauto.
  - eexists _, _. apply s_render. destruct X as [_ X]. apply r_lock_reports; [assumption| |]; rewrite X; reflexivity.
  - eexists _, _. apply s_render. apply r_lock_grid; [assumption| |]; rewrite X; reflexivity.
  - eexists _, _. apply s_render. apply (r_consume rec s (tracked s)); [assumption|]. now rewrite Re.
  - eexists _, _. apply s_render. now apply r_unlock_grid.
  - eexists _, _. apply s_render. now apply r_unlock_reports.
  - eexists _, _. apply s_render. now apply r_store.
  - eexists _, _. apply s_render. apply r_no_frame; [assumption|]. right. rewrite C. now destruct (index s).
Qed.

(** ** What is displayed *)
Lemma shows_iff : forall t c, shows t c = true <-> In c (map fst t).
Proof.
  intros t c. unfold shows. rewrite existsb_exists, in_map_iff. split.
  - intros (e & Hin & E). apply cell_eqb_true in E. eauto.
  - intros (e & <- & Hin). exists e. split; [assumption|]. now apply cell_eqb_true.
Qed.
Lemma hide_in : forall t c e, In e (hide t c) <-> In e t /\ fst e <> c.
Proof.
  intros t c e. unfold hide. rewrite filter_In, negb_true_iff. split; intros [H N]; (split; [assumption|]).
  - intro E. apply cell_eqb_true in E. congruence.
  - destruct (cell_eqb (fst e) c) eqn:E; [|reflexivity]. apply cell_eqb_true in E. contradiction.
Qed.
Lemma hide_keys : forall t c c', In c' (map fst (hide t c)) <-> In c' (map fst t) /\ c' <> c.
Proof.
  intros t c c'. rewrite !in_map_iff. split.
  - intros (e & <- & H). apply hide_in in H. destruct H. split; [eauto|assumption].
  - intros [(e & <- & H) N]. exists e. split; [reflexivity|]. now apply hide_in.
Qed.
Lemma hide_nodup : forall t c, NoDup (map fst t) -> NoDup (map fst (hide t c)).
Proof.
  induction t as [|e t IH]; intros c N; [constructor|]. cbn [map] in N. inversion N; subst. cbn [hide filter]. destruct (negb _); [|now apply IH].
  cbn [map]. constructor; [|now apply IH]. intro K. apply hide_keys in K. tauto.
Qed.

Lemma consume_spec : forall o l t t', consume o l t = Ret t' -> NoDup (map fst t) ->
  NoDup (map fst t') /\
  (forall c, In c l -> In c (map fst t') <-> om_occupied o c = Ret true) /\
  (forall c, ~ In c l -> In c (map fst t') <-> In c (map fst t)) /\
  (forall c p, In (c, p) t' -> In (c, p) t \/ (In c l /\ p = gm_point_from_cell (om_grid o) c)).
Proof.
  intros o. induction l as [|c l IH]; intros t t' E N.
  - cbn in E. injection E as <-. split; [assumption|]. split; [intros c []|]. split; [reflexivity|auto].
  - unfold consume in E. cbn [ofold] in E. unfold consume1 at 1 in E. destruct (om_occupied o c) as [b| |] eqn:Eo; try discriminate. cbn [obind] in E.
    match type of E with ofold _ ?u _ = _ => set (t1 := u) in E end.
    assert (X : NoDup (map fst t1) /\ (In c (map fst t1) <-> b = true) /\ (forall c', c' <> c -> In c' (map fst t1) <-> In c' (map fst t)) /\
              (forall c' p, In (c', p) t1 -> In (c', p) t \/ (c' = c /\ p = gm_point_from_cell (om_grid o) c))).
    { pose proof (shows_iff t c) as Sh. unfold t1. destruct b; destruct (shows t c) eqn:Es.
      - split; [assumption|]. split; [split; [reflexivity|intros _; now apply Sh]|]. split; [reflexivity|auto].
      - split; [cbn [map fst]; constructor; [rewrite <- Sh; discriminate|assumption]|]. split; [split; [reflexivity|intros _; now left]|]. split.
        + intros c' Nc. cbn [map fst In]. split; [intros [K|K]; [congruence|assumption]|auto].
        + intros c' p [K|K]; [injection K as <- <-; auto|auto].
      - split; [now apply hide_nodup|]. split; [|split].
        + rewrite hide_keys. split; [tauto|discriminate].
        + intros c' Nc. rewrite hide_keys. tauto.
        + intros c' p K. apply hide_in in K. tauto.
      - split; [assumption|]. split; [rewrite <- Sh; split; discriminate|]. split; [reflexivity|auto]. }
    clearbody t1. destruct X as (N1 & X1 & X2 & X3). destruct (IH t1 t' E N1) as (N' & Y1 & Y2 & Y3).
    split; [assumption|]. split; [|split].
    + intros c' [<-|Hc]; [|now apply Y1]. destruct (in_dec (list_eq_dec Z.eq_dec) c l) as [D|D]; [now apply Y1|].
      unfold cell in *. rewrite (Y2 c D), X1, Eo. split; congruence.
    + intros c' Nc. cbn [In] in Nc. unfold cell in *. rewrite Y2 by tauto. apply X2. intros ->. tauto.
    + intros c' p K. destruct (Y3 c' p K) as [K'|[K1 K2]]; [|right; split; [now right|assumption]].
      destruct (X3 c' p K') as [K''|[-> K'']]; [now left|]. right. split; [now left|assumption].
Qed.

Lemma integrate_display : forall d r t fuel of oo m g o cloud g', map_range d r t -> reachable d r t g ->
  request_ok d r (pc_bounds cloud) -> is_order of -> is_order oo -> gm_track_changes g = true -> gm_changed_cells g = [] ->
  fltb (occupied_threshold_logodds m) f0 = false ->
  integrate_point_cloud fuel of oo m g o cloud = Ret g' ->
  bmin (gm_bounds g) = bmin (gm_bounds g') \/ (forall c v, gm_get g c <> Ret v) ->
  forall c, cells_in_isize c -> ~ In c (gm_changed_cells g') -> occupied m g' c = Ret true <-> occupied m g c = Ret true.
Proof.
  intros d r t fuel of oo m g o cloud g' M H RQ Hf Ho T C TH E K c Ic Nc.
  destruct (integrate_places d r t fuel of oo m g o cloud g' M H RQ Hf Ho E) as (cb & cb' & free & occ & V & V' & ER & _ & SB & PL).
  assert (NF : ~ In c free /\ ~ In c occ).
  { destruct (integrate_spec _ _ _ _ _ _ _ _ Hf Ho (cc_storage _ _ _ _ _ V) E) as (g1 & f1 & o1 & E1 & E2 & _ & _ & _ & B & R & _ & _ & _ & _ & _ & On & _).
    destruct (expand_storage _ _ _ _ (cc_storage _ _ _ _ _ V) E1) as (_ & R1 & _).
    rewrite <- B, R1, (cc_resolution _ _ _ _ _ V), ER in E2. injection E2 as <- <-. destruct (On T) as (l & L & _ & In_l). rewrite L, C in Nc. cbn [app] in Nc.
    rewrite In_l in Nc. tauto. }
  destruct NF as [NF NO]. pose proof (integrate_reachable _ _ _ _ _ _ _ _ _ _ _ H RQ E) as H'.
  assert (CK : (forall c v, gm_get g c <> Ret v) \/ cmin cb = cmin cb').
  { destruct K as [K|K]; [right|now left]. destruct V as [_ _ _ _ [N1 _] V1 _ _ _], V' as [_ _ _ _ [N1' _] V1' _ _ _]. rewrite <- K in V1'.
    exact (at_cell_unique r _ _ _ (proj1 (proj2 M)) N1 N1' V1 V1'). }
  destruct V as [_ _ (L1 & L2 & _) _ _ _ _ Vs St], V' as [_ _ (L1' & L2' & _) _ _ _ _ Vs' St']. unfold occupied. split; intros G.
  - destruct (gm_get g' c) as [v| |] eqn:Gv; try discriminate. cbn [obind] in G. injection G as G.
    pose proof (gm_get_range g' c v St' Ic Gv) as Rc. rewrite Vs' in Rc. apply range_box in Rc; [|congruence]. destruct Rc as [Bx EC].
    destruct (PL _ Bx) as (old & [O1 O2] & _ & _ & O5). rewrite EC in O5. specialize (O5 NO NF). rewrite Gv in O5. injection O5 as <-.
    destruct (in_box_dec cb (map2 Z.add (cmin cb') c)) as [D|D].
    + specialize (O1 D). destruct CK as [CK|CK]; [exfalso; now apply CK in O1|]. rewrite CK, EC in O1. rewrite O1. cbn [obind]. now rewrite G.
    + rewrite (O2 D) in G. congruence.
  - destruct (gm_get g c) as [v| |] eqn:Gv; try discriminate. cbn [obind] in G. injection G as G.
    destruct CK as [CK|CK]; [exfalso; now apply CK in Gv|].
    pose proof (gm_get_range g c v St Ic Gv) as Rc. rewrite Vs in Rc. apply range_box in Rc; [|congruence]. destruct Rc as [Bx EC].
    destruct (PL _ (SB _ Bx)) as (old & [O1 O2] & _ & _ & O5). specialize (O1 Bx). rewrite EC, Gv in O1. injection O1 as <-.
    rewrite CK in EC. rewrite CK, EC in O5. rewrite (O5 NO NF). cbn [obind]. now rewrite G.
Qed.

Record Shown (d : nat) (r : f32) (t : Z) (m : lidar) (s : state) : Prop := {
  d_model : om_model (grid s) = m;
  d_reachable : reachable d r t (om_grid (grid s));
  d_nodup : NoDup (map fst (tracked s));
  d_isize : forall c, In c (map fst (tracked s)) -> cells_in_isize c;
  d_points : forall c p, In (c, p) (tracked s) -> p = gm_point_from_cell (om_grid (grid s)) c;
  d_agree : forall c, cells_in_isize c -> ~ In c (reports s) -> ~ In c (gm_changed_cells (om_grid (grid s))) ->
    In c (map fst (tracked s)) <-> om_occupied (grid s) c = Ret true
}.

Lemma shown_step : forall rec d r t m s th ev s', recorded rec -> map_range d r t ->
  Forall (fun c => request_ok d r (pc_bounds c)) (clouds rec) -> fltb (occupied_threshold_logodds m) f0 = false ->
  Inv rec s -> Forall (fun w => request_ok d r (pc_bounds (w_cloud w))) (workers s) -> corner_kept ev -> step rec s th ev s' ->
  (cur s <> WPanicked -> Shown d r t m s) -> cur s' <> WPanicked -> Shown d r t m s'.
Proof.
  intros rec d r t m s th ev s' R M RQ TH I WQ CK St D NP. destruct St as [ev s' St|newer w older ev pc s' Ew St].
  - assert (D0 : Shown d r t m s).
    { apply D. intro K. apply NP. destruct St; unfold cur in *; fields; try exact K.
      exfalso. pose proof (i_phase _ _ I) as P. unfold cur in P. rewrite K, H in P. discriminate. }
    clear D NP. destruct D0 as [D1 D2 D3 D4 D5 D6].
    destruct St; try (constructor; fields; assumption).
    destruct (consume_spec _ _ _ _ H0 D3) as (N' & X1 & X2 & X3).
    assert (NP : cur s <> WPanicked) by (intro K; pose proof (i_phase _ _ I) as P; rewrite K, H in P; discriminate).
    constructor; fields; try assumption.
    + intros c Hc. destruct (in_dec (list_eq_dec Z.eq_dec) c (reports s)) as [K|K].
      * pose proof (i_reports _ _ I NP) as F. rewrite Forall_forall in F. now apply F.
      * apply D4. now apply (X2 c K).
    + intros c p Hc. destruct (X3 c p Hc) as [K|[_ K]]; [now apply D5|assumption].
    + intros c Ic _ Nc. destruct (in_dec (list_eq_dec Z.eq_dec) c (reports s)) as [K|K]; [now apply X1|].
      unfold cell in *. rewrite (X2 c K). now apply D6.
  - pose proof (worker_newest _ _ _ _ _ _ _ _ I Ew St) as ->. cbn [app] in *. rewrite Ew in WQ. inversion WQ as [|? ? WQ1 _]; subst.
    assert (C : cur s = w_pc w) by (unfold cur; now rewrite Ew).
    assert (D0 : Shown d r t m s) by (apply D; rewrite C; destruct St; congruence). clear D.
    destruct D0 as [D1 D2 D3 D4 D5 D6]. unfold cur in NP. fields. cbn [at_pc w_pc] in NP.
    destruct St; try congruence; try (constructor; fields; assumption).
    + (* track *) constructor; fields; try assumption. now apply reach_track.
    + (* integrate *) pose proof (i_no_changes _ _ I) as IC. rewrite C, H in IC. specialize (IC eq_refl).
      pose proof (i_tracking _ _ I) as IT. rewrite C, H in IT. specialize (IT eq_refl).
      pose proof (i_no_reports _ _ I) as IR. rewrite C, H in IR. specialize (IR ltac:(destruct (render s); reflexivity)).
      destruct (om_integrate_spec _ _ _ _ _ _ _ H2) as [E EM].
      specialize (CK _ _ (or_introl eq_refl)).
      assert (AG : forall c, cells_in_isize c -> ~ In c (gm_changed_cells (om_grid o')) -> In c (map fst (tracked s)) <-> om_occupied o' c = Ret true).
      { intros c Ic Nc. unfold om_occupied at 1. rewrite EM.
        rewrite (integrate_display d r t _ _ _ _ _ _ _ _ M D2 WQ1 H0 H1 IT IC) by (try eassumption; now rewrite D1).
        apply D6; [assumption|now rewrite IR|now rewrite IC]. }
      constructor; fields; try assumption; try congruence.
      * now apply (integrate_reachable d r t _ _ _ _ _ _ _ _ D2 WQ1 E).
      * intros c p Hc. destruct CK as [CK|CK].
        -- rewrite (D5 c p Hc). destruct (integrate_spec _ _ _ _ _ _ _ _ H0 H1 (i_storage _ _ I ltac:(rewrite C; congruence)) E) as (g1 & f1 & o1 & _ & _ & _ & _ & _ & _ & RR & _).
           unfold gm_point_from_cell. now rewrite CK, RR.
        -- exfalso. assert (Ho : om_occupied (grid s) c = Ret true).
           { apply D6; [apply D4|now rewrite IR|now rewrite IC|]; change c with (fst (c, p)); now apply in_map. }
           unfold om_occupied, occupied in Ho. destruct (gm_get _ c) as [v| |] eqn:Gv; try discriminate. now apply CK in Gv.
      * intros c Ic _ Nc. now apply AG.
    + (* report *) constructor; fields; try assumption. intros c Ic N1 _. apply D6; try assumption.
      pose proof (i_no_reports _ _ I) as IR. rewrite C, H in IR. specialize (IR ltac:(destruct (render s); reflexivity)). now rewrite IR.
    + (* clear *) constructor; fields; try assumption; [now apply reach_clear|]. intros c Ic N1 _. apply D6; try assumption.
      pose proof (i_same _ _ I) as IR. rewrite <- IR; [assumption|right; congruence].
    + (* untrack *) constructor; fields; try assumption. now apply reach_track.
Qed.

Lemma worker_requests : forall rec d r s th ev s', Forall (fun c => request_ok d r (pc_bounds c)) (clouds rec) ->
  Forall (fun w => request_ok d r (pc_bounds (w_cloud w))) (workers s) -> step rec s th ev s' ->
  Forall (fun w => request_ok d r (pc_bounds (w_cloud w))) (workers s').
Proof.
  intros rec d r s th ev s' RQ WQ St. destruct St as [ev s' St|newer w older ev pc s' Ew St].
  - destruct St; fields; try assumption. constructor; [|assumption]. cbn [w_cloud]. rewrite Forall_forall in RQ. apply RQ. eapply nth_error_In. eassumption.
  - fields. rewrite Ew in WQ. apply Forall_app in WQ. destruct WQ as [W1 W2]. inversion W2; subst. apply Forall_app. split; [assumption|]. now constructor.
Qed.

Lemma shown_run : forall rec d r t m tr s, recorded rec -> map_range d r t ->
  Forall (fun c => request_ok d r (pc_bounds c)) (clouds rec) -> fltb (occupied_threshold_logodds m) f0 = false ->
  reaches rec d m r t tr s -> corner_kept tr -> cur s <> WPanicked -> Shown d r t m s.
Proof.
  intros rec d r t m tr s R M RQ TH (o & E & H). pose proof (inv_initial _ _ _ _ _ _ R E) as I0.
  assert (X : Forall (fun w => request_ok d r (pc_bounds (w_cloud w))) (workers s) /\ (corner_kept tr -> cur s <> WPanicked -> Shown d r t m s)); [|apply X].
  induction H as [|tr s1 th ev s2 H IH St].
  - split; [constructor|]. intros _ _. destruct (new_facts _ _ _ _ _ E) as (S & C & Mo & T).
    assert (G : gm_new r (bounds_empty d) t default_cell_value = Ret (om_grid o)).
    { unfold om_new in E. destruct (gm_new _ _ _ _); try discriminate. cbn [obind] in E. injection E as <-. reflexivity. }
    assert (Rc : reachable d r t (om_grid o)) by (eapply reach_new; exact G).
    constructor; cbn; auto; try constructor; try contradiction.
    intros K. exfalso. rename H into Ic. rewrite (empty_bounds d r (proj1 (proj2 M))) in G.
    destruct (zero_ordered d t) as (Z1 & Z2 & Z3). destruct (wf_new d r t _ _ _ M Z1 Z2 Z3 G) as (W & _).
    unfold om_occupied, occupied in K. destruct (gm_get (om_grid o) c) as [v| |] eqn:Gv; try discriminate. apply gm_get_range in Gv; try assumption.
    rewrite (wf_shape _ _ _ _ _ W) in Gv. revert Gv. apply empty_no_cells. apply M.
  - destruct IH as [WQ IH]. split; [eapply worker_requests; eassumption|]. intros CK NP.
    apply (shown_step rec d r t m s1 th ev s2 R M RQ TH); try assumption.
    + exact (inv_run _ _ _ _ R I0 H).
    + intros a b Hin. apply CK. apply in_app_iff. now right.
    + apply IH. intros a b Hin. apply CK. apply in_app_iff. now left.
Qed.

(** The display after a report has been consumed. *)
Lemma display_right : forall rec d r t m tr s, recorded rec -> map_range d r t ->
  Forall (fun c => request_ok d r (pc_bounds c)) (clouds rec) -> fltb (occupied_threshold_logodds m) f0 = false ->
  reaches rec d m r t tr s -> corner_kept tr -> existsb panicked (workers s) = false ->
  NoDup (map fst (tracked s)) /\
  (forall c p, In (c, p) (tracked s) -> p = gm_point_from_cell (om_grid (grid s)) c) /\
  (forall c, cells_in_isize c -> ~ In c (reports s) -> ~ In c (gm_changed_cells (om_grid (grid s))) ->
     (exists p, In (c, p) (tracked s)) <-> om_occupied (grid s) c = Ret true) /\
  (render s = RUnlockGrid -> reports s = [] /\ gm_changed_cells (om_grid (grid s)) = []).
Proof.
  intros rec d r t m tr s R M RQ TH H CK NP.
  assert (NC : cur s <> WPanicked).
  { unfold cur. destruct (workers s) as [|w ws]; [discriminate|]. cbn [existsb] in NP. apply orb_false_iff in NP. destruct NP as [NP _]. unfold panicked in NP. intro K. now rewrite K in NP. }
  destruct (shown_run rec d r t m tr s R M RQ TH H CK NC) as [_ _ D3 _ D5 D6]. split; [assumption|]. split; [assumption|]. split.
  - intros c Ic N1 N2. rewrite <- (D6 c Ic N1 N2). rewrite in_map_iff. split.
    + intros [p K]. now exists (c, p).
    + intros [[c' p] [K1 K2]]. cbn [fst] in K1. subst c'. now exists p.
  - intros Er. pose proof (inv_reaches _ _ _ _ _ _ _ R H) as I. pose proof (i_phase _ _ I) as P. rewrite Er in P.
    assert (C : cur s = WDone) by (destruct (cur s); try discriminate; reflexivity).
    split; [apply (i_no_reports _ _ I)|apply (i_no_changes _ _ I)]; rewrite ?Er, C; reflexivity.
Qed.
