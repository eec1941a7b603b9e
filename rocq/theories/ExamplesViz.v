(** Concrete schedules of the visualiser: examples for the theorems and witnesses. *)
From Coq Require Import ZArith List Bool Reals Lra Lia Permutation.
From Flocq Require Import Core BinarySingleNaN.
From Verif Require Import Base F32 Arith Geom NdArray GridMap RayCaster NoiseModel Spec SpecMap SpecNoise CloudProofs GridProofs ExpandProofs MapProofs NoiseProofs Examples ExamplesMap ExamplesNoise Viz SpecViz VizProofs.
Open Scope Z_scope.

(** ** Running a schedule: the steps of the render thread and of the newest worker *)
Definition takes (m : mutex) : bool := match owner m with None => negb (poisoned m) | _ => false end.
Definition render_act (rec : recording) (s : state) : option (list event * state) :=
  match render s with
  | RLoad => Some ([], set_render s (if finished s then RLockReports else RDraw))
  | RLockReports => if takes (reports_lock s) then Some ([], set_render (set_reports_lock s (held_by Render)) RLockGrid) else None
  | RLockGrid => if takes (grid_lock s) then Some ([], set_render (set_grid_lock s (held_by Render)) RConsume) else None
  | RConsume => match consume (grid s) (reports s) (tracked s) with
                | Ret t => Some ([EConsume (reports s)], set_render (set_reports (set_tracked s t) []) RUnlockGrid)
                | _ => None end
  | RUnlockGrid => Some ([], set_render (set_grid_lock s free_mutex) RUnlockReports)
  | RUnlockReports => Some ([], set_render (set_reports_lock s free_mutex) RStore)
  | RStore => Some ([], set_render (set_finished s false) RSpawn)
  | RSpawn => match nth_error (origins rec) (index s), nth_error (clouds rec) (index s) with
              | Some o, Some c => Some ([EStart o c], set_render (set_workers s (mkWorker o c WLockGrid :: workers s)) RIndex)
              | _, _ => Some ([], set_render s RPanicked) end
  | RIndex => match length (clouds rec) with
              | O => None
              | S n => Some ([], set_render (set_index s ((index s + 1) mod S n)) RDraw) end
  | RDraw => match nth_error (origins rec) (index s) with
             | Some _ => Some ([EFrame (tracked s)], set_render s RLoad) | None => Some ([], set_render s RPanicked) end
  | RPanicked => None
  end.
Definition work_act (fuel : nat) (s : state) (k : nat) (w : worker) : option (list event * wpc * state) :=
  match w_pc w with
  | WLockGrid => if takes (grid_lock s) then Some ([], WTrack, set_grid_lock s (held_by (Worker k))) else None
  | WTrack => Some ([], WIntegrate, set_grid s (track (grid s) true))
  | WIntegrate => match om_integrate fuel as_is as_is (grid s) (w_origin w) (w_cloud w) with
                  | Ret o' => Some ([EIntegrate (grid s) o'], WLockReports, set_grid s o')
                  | Panic => Some ([], WPanicked, set_grid_lock (set_grid s (grid s)) poisoned_mutex)
                  | NoFuel => None end
  | WLockReports => if takes (reports_lock s) then Some ([], WReport, set_reports_lock s (held_by (Worker k))) else None
  | WReport => Some ([EReport (gm_changed_cells (om_grid (grid s)))], WUnlockReports, set_reports s (gm_changed_cells (om_grid (grid s))))
  | WUnlockReports => Some ([], WClear, set_reports_lock s free_mutex)
  | WClear => Some ([], WUntrack, set_grid s (clear (grid s)))
  | WUntrack => Some ([], WStore, set_grid s (track (grid s) false))
  | WStore => Some ([], WUnlockGrid, set_finished s true)
  | WUnlockGrid => Some ([], WDone, set_grid_lock s free_mutex)
  | _ => None
  end.
Definition act (rec : recording) (s : state) (r : bool) : option (list event * state) :=
  if r then render_act rec s
  else match workers s with
       | w :: older => match work_act 50 s (length older) w with
                       | Some (ev, pc, s') => Some (ev, set_workers s' (at_pc w pc :: older))
                       | None => None end
       | [] => None end.
Fixpoint acts (rec : recording) (tr : list event) (s : state) (l : list bool) : option (list event * state) :=
  match l with
  | [] => Some (tr, s)
  | r :: l' => match act rec s r with Some (ev, s') => acts rec (tr ++ ev) s' l' | None => None end
  end.

Lemma takes_true : forall m, takes m = true -> owner m = None /\ poisoned m = false.
Proof. intros [[|] []]; cbn; intro; try discriminate; auto. Qed.
Lemma render_act_ok : forall rec s ev s', render_act rec s = Some (ev, s') -> step rec s Render ev s'.
Proof.
  intros rec s ev s' H. apply s_render. unfold render_act in H. destruct (render s) eqn:Er.
  - injection H as <- <-. destruct (finished s) eqn:F; [now apply r_ready|now apply r_busy].
  - destruct (takes _) eqn:T; [|discriminate]. injection H as <- <-. apply takes_true in T. destruct T. now apply r_lock_reports.
  - destruct (takes _) eqn:T; [|discriminate]. injection H as <- <-. apply takes_true in T. destruct T. now apply r_lock_grid.
  - destruct (consume _ _ _) eqn:C; try discriminate. injection H as <- <-. now apply r_consume.
  - injection H as <- <-. now apply r_unlock_grid.
  - injection H as <- <-. now apply r_unlock_reports.
  - injection H as <- <-. now apply r_store.
  - destruct (nth_error (origins rec) _) eqn:E1; [destruct (nth_error (clouds rec) _) eqn:E2|]; injection H as <- <-.
    + now apply r_spawn.
    + apply r_no_frame; auto.
    + apply r_no_frame; auto.
  - destruct (length (clouds rec)) eqn:L; [discriminate|]. injection H as <- <-.
    pose proof (r_index rec s Er ltac:(congruence)) as X. rewrite L in X. exact X.
  - destruct (nth_error (origins rec) _) eqn:E1; injection H as <- <-; [apply r_draw|apply r_no_pose]; congruence.
  - discriminate.
Qed.
Lemma work_act_ok : forall fuel s k w ev pc s', work_act fuel s k w = Some (ev, pc, s') -> work s k w ev pc s'.
Proof.
  intros fuel s k w ev pc s' H. unfold work_act in H. destruct (w_pc w) eqn:Ew.
  - destruct (takes _) eqn:T; [|discriminate]. injection H as <- <- <-. apply takes_true in T. destruct T. now apply w_lock_grid.
  - injection H as <- <- <-. now apply w_track.
  - destruct (om_integrate _ _ _ _ _ _) eqn:E; [| |discriminate]; injection H as <- <- <-.
    + eapply w_integrate; [assumption| | |exact E]; exact as_is_order.
    + eapply w_integrate_panics; [assumption| | |exact E]; exact as_is_order.
  - destruct (takes _) eqn:T; [|discriminate]. injection H as <- <- <-. apply takes_true in T. destruct T. now apply w_lock_reports.
  - injection H as <- <- <-. now apply w_report.
  - injection H as <- <- <-. now apply w_unlock_reports.
  - injection H as <- <- <-. now apply w_clear.
  - injection H as <- <- <-. now apply w_untrack.
  - injection H as <- <- <-. now apply w_store.
  - injection H as <- <- <-. now apply w_unlock_grid.
  - discriminate.
  - discriminate.
Qed.
Lemma acts_ok : forall rec l s0 tr s tr' s', run rec s0 tr s -> acts rec tr s l = Some (tr', s') -> run rec s0 tr' s'.
Proof.
  intros rec. induction l as [|r l IH]; intros s0 tr s tr' s' R H; cbn [acts] in H; [injection H as <- <-; assumption|].
  destruct (act rec s r) as [[ev s1]|] eqn:A; [|discriminate]. apply (IH s0 (tr ++ ev) s1); [|assumption].
  unfold act in A. destruct r.
  - eapply run_step; [exact R|]. apply render_act_ok; exact A.
  - destruct (workers s) as [|w older] eqn:Ew; [discriminate|]. destruct (work_act _ _ _ _) as [[[ev' pc] s2]|] eqn:W; [|discriminate]. injection A as <- <-.
    eapply run_step; [exact R|]. apply (s_worker rec s [] w older); [exact Ew|]. eapply work_act_ok; exact W.
Qed.

(** ** Recordings *)
Definition ex_scan3 : matrix := mkMatrix 2 1 [f32_lit 3 10; f0].
Lemma ex_scan3_ok : request_ok 2 tenth (pc_bounds ex_scan3).
Proof.
  apply cloud_request; [exact res_tenth|reflexivity|reflexivity|]. intros p [<- |[]]; repeat apply Forall_cons; try apply Forall_nil.
  - change (within_cells (2 ^ 18) tenth (f32_lit 3 10)). within (f32_lit 3 10).
  - change (within_cells (2 ^ 18) tenth f0). within f0.
Qed.
(** two clouds above the origin; a cloud above, then one below; a cloud that makes the worker panic *)
Definition rec_up : recording := mkRec [ex_zero; ex_zero] [ex_scan1; ex_scan3].
Definition rec_down : recording := mkRec [ex_zero; ex_zero] [ex_scan1; ex_scan2].
Definition rec_bad : recording := mkRec [ex_zero] [ex_edge].
Definition rec_none : recording := mkRec [] [].
Lemma rec_up_ok : recorded rec_up. Proof. split; [reflexivity|discriminate]. Qed.
Lemma rec_down_ok : recorded rec_down. Proof. split; [reflexivity|discriminate]. Qed.
Lemma rec_bad_ok : recorded rec_bad. Proof. split; [reflexivity|discriminate]. Qed.
Lemma rec_up_requests : Forall (fun c => request_ok 2 tenth (pc_bounds c)) (clouds rec_up).
Proof. repeat apply Forall_cons; [exact ex_scan1_ok|exact ex_scan3_ok|apply Forall_nil]. Qed.
Lemma rec_down_requests : Forall (fun c => request_ok 2 tenth (pc_bounds c)) (clouds rec_down).
Proof. repeat apply Forall_cons; [exact ex_scan1_ok|exact ex_scan2_ok|apply Forall_nil]. Qed.

(** The render thread starts a worker and draws; the worker runs to the end. *)
Definition frame : list bool := repeat true 10.
Definition whole_worker : list bool := repeat false 10.
(** consume the last report *)
Definition take_report : list bool := repeat true 4.
Definition two_frames : list bool := frame ++ whole_worker ++ frame ++ whole_worker ++ take_report.

Lemma schedule : forall rec l (P : list event -> state -> bool),
  match om_new 2 ex_lidar tenth 4 with Ret o => match acts rec [] (initial o) l with Some (tr, s) => P tr s | None => false end | _ => false end = true ->
  exists tr s, reaches rec 2 ex_lidar tenth 4 tr s /\ P tr s = true.
Proof.
  intros rec l P H. apply ret_ex in H. destruct H as (o & E & H). destruct (acts _ _ _ _) as [[tr s]|] eqn:A; [|discriminate].
  exists tr, s. split; [|assumption]. exists o. split; [assumption|]. eapply acts_ok; [apply run_start|exact A].
Qed.

(** Exact equality of points, decided. *)
Definition sf_dec : forall a b : SpecFloat.spec_float, {a = b} + {a <> b}.
Proof. decide equality; try apply Pos.eq_dec; try apply Z.eq_dec; apply Bool.bool_dec. Defined.
Definition same_points (a b : point) : bool := if list_eq_dec sf_dec (map B2SF a) (map B2SF b) then true else false.
Lemma same_points_true : forall a b, same_points a b = true -> a = b.
Proof.
  unfold same_points. intros a b H. destruct (list_eq_dec _ _ _) as [E|]; [|discriminate]. clear H. revert b E.
  induction a as [|x a IH]; intros [|y b] E; cbn [map] in E; try discriminate; [reflexivity|]. injection E as E1 E2. f_equal; [now apply B2SF_inj|now apply IH].
Qed.
Definition keeps (e : event) : bool :=
  match e with
  | EIntegrate o o' => cell_eqb (nd_shape (gm_data (om_grid o))) [0; 0] || same_points (bmin (gm_bounds (om_grid o))) (bmin (gm_bounds (om_grid o')))
  | _ => true end.
Lemma keeps_true : forall tr, forallb keeps tr = true -> corner_kept tr.
Proof.
  intros tr H o o' Hin. rewrite forallb_forall in H. specialize (H _ Hin). cbn [keeps] in H. apply orb_true_iff in H. destruct H as [H|H].
  - right. apply cell_eqb_true in H. intros c v G. unfold gm_get in G. rewrite NdProofs.get_out in G; [discriminate|]. rewrite H. intro K. inversion K; subst. lia.
  - left. now apply same_points_true.
Qed.
Definition rpc_eqb (a b : rpc) : bool :=
  match a, b with
  | RLoad, RLoad | RLockReports, RLockReports | RLockGrid, RLockGrid | RConsume, RConsume | RUnlockGrid, RUnlockGrid
  | RUnlockReports, RUnlockReports | RStore, RStore | RSpawn, RSpawn | RIndex, RIndex | RDraw, RDraw | RPanicked, RPanicked => true
  | _, _ => false end.
Lemma rpc_eqb_true : forall a b, rpc_eqb a b = true -> a = b.
Proof. intros [] []; cbn; intro; congruence. Qed.

Definition occ_is (o : occ_map) (c : cell) (b : bool) : bool := match om_occupied o c with Ret x => Bool.eqb x b | _ => false end.
Lemma occ_is_true : forall o c b, occ_is o c b = true -> om_occupied o c = Ret b.
Proof. unfold occ_is. intros o c b H. destruct (om_occupied o c); try discriminate. apply eqb_prop in H. now subst. Qed.

Definition all_b (l : list bool) : bool := forallb (fun b => b) l.

(** Two frames above the origin: what was hit in the first and in the second is displayed. *)
Lemma ex_two_frames : exists tr s, reaches rec_up 2 ex_lidar tenth 4 tr s /\ corner_kept tr /\
  render s = RUnlockGrid /\ existsb panicked (workers s) = false /\ length (started tr) = 2%nat /\
  (exists p, In ([2; 0], p) (tracked s)) /\ (exists p, In ([3; 0], p) (tracked s)) /\ om_occupied (grid s) [1; 0] = Ret false.
Proof.
  destruct (schedule rec_up two_frames (fun tr s => all_b [forallb keeps tr; rpc_eqb (render s) RUnlockGrid; negb (existsb panicked (workers s));
    Nat.eqb (length (started tr)) 2; shows (tracked s) [2; 0]; shows (tracked s) [3; 0]; occ_is (grid s) [1; 0] false])) as (tr & s & R & Q);
    [vm_compute; reflexivity|].
  unfold all_b in Q. cbn [forallb] in Q. rewrite !andb_true_iff in Q. destruct Q as (Q1 & Q2 & Q3 & Q4 & Q5 & Q6 & Q7 & _).
  exists tr, s. split; [exact R|]. split; [now apply keeps_true|]. split; [now apply rpc_eqb_true|]. split; [now apply negb_true_iff|].
  split; [now apply Nat.eqb_eq|]. split; [|split; [|now apply occ_is_true]].
  - apply shows_iff, in_map_iff in Q5. destruct Q5 as [[c p] [E K]]. cbn in E. subst. now exists p.
  - apply shows_iff, in_map_iff in Q6. destruct Q6 as [[c p] [E K]]. cbn in E. subst. now exists p.
Qed.

(** A frame above, then one below: the cell number of the first hit denotes another place
    now, which is not occupied, but it is still displayed. *)
Lemma ex_stale : exists tr s c p, reaches rec_down 2 ex_lidar tenth 4 tr s /\ existsb panicked (workers s) = false /\
  render s = RUnlockGrid /\ reports s = [] /\ gm_changed_cells (om_grid (grid s)) = [] /\ cells_in_isize c /\
  In (c, p) (tracked s) /\ om_occupied (grid s) c = Ret false.
Proof.
  destruct (schedule rec_down two_frames (fun tr s => all_b [rpc_eqb (render s) RUnlockGrid; negb (existsb panicked (workers s));
    cells_eqb (reports s) []; cells_eqb (gm_changed_cells (om_grid (grid s))) []; shows (tracked s) [2; 0]; occ_is (grid s) [2; 0] false])) as (tr & s & R & Q);
    [vm_compute; reflexivity|].
  unfold all_b in Q. cbn [forallb] in Q. rewrite !andb_true_iff in Q. destruct Q as (Q1 & Q2 & Q3 & Q4 & Q5 & Q6 & _).
  apply shows_iff, in_map_iff in Q5. destruct Q5 as [[c p] [E K]]. cbn in E. subst c.
  exists tr, s, [2; 0], p. split; [exact R|]. split; [now apply negb_true_iff|]. split; [now apply rpc_eqb_true|].
  split; [now apply cells_eqb_true|]. split; [now apply cells_eqb_true|]. split; [repeat constructor; cbv; discriminate|]. split; [exact K|now apply occ_is_true].
Qed.

(** The render thread waits for the grid while a worker that has just announced its end
    still holds it. *)
Lemma ex_waiting : exists tr s, reaches rec_up 2 ex_lidar tenth 4 tr s /\ ~ moves rec_up Render s /\ moves rec_up (Worker 0) s.
Proof.
  pose (l := frame ++ repeat false 9 ++ [true; true]).
  destruct (schedule rec_up l (fun tr s => all_b [rpc_eqb (render s) RLockGrid; match owner (grid_lock s) with Some _ => true | _ => false end;
    match workers s with [w] => match w_pc w with WUnlockGrid => true | _ => false end | _ => false end])) as (tr & s & R & Q); [vm_compute; reflexivity|].
  unfold all_b in Q. cbn [forallb] in Q. rewrite !andb_true_iff in Q. destruct Q as (Q1 & Q2 & Q3 & _). apply rpc_eqb_true in Q1.
  exists tr, s. split; [exact R|]. split.
  - intros (ev & s' & St). inversion St as [? ? St'|]; subst. destruct St'; try congruence; now rewrite H0 in Q2.
  - destruct (workers s) as [|w [|]] eqn:W; try discriminate. destruct (w_pc w) eqn:P; try discriminate.
    eexists _, _. apply (s_worker rec_up s [] w []); [exact W|]. now apply w_unlock_grid.
Qed.

(** A worker panics. *)
Lemma ex_panicked : exists tr s, reaches rec_bad 2 ex_lidar tenth 4 tr s /\ existsb panicked (workers s) = true.
Proof.
  apply (schedule rec_bad (frame ++ repeat false 3) (fun tr s => existsb panicked (workers s))). vm_compute. reflexivity.
Qed.

(** Without frames the first frame panics. *)
Lemma ex_none : exists tr s, reaches rec_none 2 ex_lidar tenth 4 tr s /\ render s = RPanicked.
Proof.
  destruct (schedule rec_none (repeat true 8) (fun tr s => rpc_eqb (render s) RPanicked)) as (tr & s & R & Q); [vm_compute; reflexivity|].
  exists tr, s. split; [exact R|now apply rpc_eqb_true].
Qed.

(** Quiet steps: the ten steps of the render thread up to its first frame. *)
Lemma ex_quiet : exists o s, om_new 2 ex_lidar tenth 4 = Ret o /\ quiet rec_up 9 (initial o) s.
Proof.
  assert (Q : match om_new 2 ex_lidar tenth 4 with Ret o => match acts rec_up [] (initial o) (repeat true 9) with Some _ => true | None => false end | _ => false end = true) by (vm_compute; reflexivity).
  apply ret_ex in Q. destruct Q as (o & E & Q). exists o.
  assert (X : forall n s0 tr s, quiet rec_up n s0 s ->
    match acts rec_up tr s (repeat true (9 - n)) with Some (tr', _) => existsb is_frame tr' = false | None => False end -> (n <= 9)%nat -> exists s', quiet rec_up 9 s0 s').
  { assert (Y : forall l tr s, match acts rec_up tr s l with Some (tr', _) => existsb is_frame tr' = false | None => False end -> existsb is_frame tr = false).
    { induction l as [|r l IH]; intros tr s H; cbn [acts] in H; [assumption|]. destruct (act rec_up s r) as [[ev s1]|]; [|contradiction]. apply IH in H. rewrite existsb_app in H. exact (proj1 (proj1 (orb_false_iff _ _) H)). }
    intros n. remember (9 - n)%nat as k eqn:Ek. revert n Ek. induction k as [|k IH]; intros n Ek s0 tr s H A L.
    - assert (n = 9%nat) by lia. subst n. now exists s.
    - cbn [repeat acts] in A. unfold act at 1 in A. destruct (render_act rec_up s) as [[ev s1]|] eqn:F; [|contradiction].
      apply (IH (S n) ltac:(lia) s0 (tr ++ ev) s1); [|exact A|lia]. eapply q_render; [exact H|apply render_act_ok; exact F|].
      apply Y in A. rewrite existsb_app in A. exact (proj2 (proj1 (orb_false_iff _ _) A)). }
  destruct (X 0%nat (initial o) [] (initial o) (q_start _ _)) as [s' K]; [|lia|exists s'; auto].
  assert (Q' : match om_new 2 ex_lidar tenth 4 with Ret o => match acts rec_up [] (initial o) (repeat true 9) with Some (tr, _) => negb (existsb is_frame tr) | None => false end | _ => false end = true) by (vm_compute; reflexivity).
  rewrite E in Q'. change (9 - 0)%nat with 9%nat. destruct (acts rec_up [] (initial o) (repeat true 9)) as [[tr s]|]; [|discriminate]. now apply negb_true_iff.
Qed.
