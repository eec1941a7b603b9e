(** C57-C61, C69: the visualiser's threads. *)
From Coq Require Import ZArith List Bool Reals Lia.
From Flocq Require Import Core BinarySingleNaN.
From Verif Require Import Base F32 Arith Geom NdArray GridMap RayCaster NoiseModel Spec SpecMap SpecNoise Examples ExamplesMap ExamplesNoise Viz SpecViz VizProofs MainProofs ProgramProofs LiveProofs CornerProofs ExamplesViz ExamplesLive.
Open Scope Z_scope.

(** The render thread can always move, or has to wait for exactly one step of a worker,
    which can be made.  A worker that is not integrating and has not ended can move. *)
Theorem C57_no_deadlock : forall rec d m r t tr s, recorded rec -> reaches rec d m r t tr s ->
  render s <> RPanicked /\
  (moves rec Render s \/
   ((exists k, moves rec (Worker k) s) /\ forall th ev s', step rec s th ev s' -> moves rec Render s')) /\
  (forall newer w older, workers s = newer ++ w :: older -> alive w = true -> w_pc w <> WIntegrate -> moves rec (Worker (length older)) s).
Proof. exact no_deadlock. Qed.
Print Assumptions C57_no_deadlock.

(** The render thread never makes more than ten steps without drawing a frame. *)
Theorem C57_frames_keep_coming : forall rec n s s', quiet rec n s s' -> (n <= 10)%nat.
Proof. exact frames_keep_coming. Qed.
Print Assumptions C57_frames_keep_coming.

(** Waiting does occur. *)
Example C57_example : recorded rec_up /\
  (exists tr s, reaches rec_up 2 ex_lidar tenth 4 tr s /\ ~ moves rec_up Render s /\ moves rec_up (Worker 0) s) /\
  (exists o s, om_new 2 ex_lidar tenth 4 = Ret o /\ quiet rec_up 9 (initial o) s).
Proof. exact (conj rec_up_ok (conj ex_waiting ex_quiet)). Qed.

Theorem C58_one_worker_every_report : forall rec d m r t tr s, recorded rec -> reaches rec d m r t tr s ->
  (length (filter alive (workers s)) <= 1)%nat /\
  (exists st, protocol tr st) /\
  (render s = RSpawn -> filter alive (workers s) = []).
Proof. exact one_worker. Qed.
Print Assumptions C58_one_worker_every_report.

Example C58_example : exists tr s, reaches rec_up 2 ex_lidar tenth 4 tr s /\ corner_kept tr /\
  render s = RUnlockGrid /\ existsb panicked (workers s) = false /\ length (started tr) = 2%nat /\
  (exists p, In ([2; 0], p) (tracked s)) /\ (exists p, In ([3; 0], p) (tracked s)) /\ om_occupied (grid s) [1; 0] = Ret false.
Proof. exact ex_two_frames. Qed.

(** [fltb threshold 0 = false]: a cell that was never observed does not count as occupied. *)
Theorem C59_display : forall rec d r t m tr s, recorded rec -> map_range d r t ->
  Forall (fun c => request_ok d r (pc_bounds c)) (clouds rec) -> fltb (occupied_threshold_logodds m) f0 = false ->
  reaches rec d m r t tr s -> corner_kept tr -> existsb panicked (workers s) = false ->
  NoDup (map fst (tracked s)) /\
  (forall c p, In (c, p) (tracked s) -> p = gm_point_from_cell (om_grid (grid s)) c) /\
  (forall c, cells_in_isize c -> ~ In c (reports s) -> ~ In c (gm_changed_cells (om_grid (grid s))) ->
     (exists p, In (c, p) (tracked s)) <-> om_occupied (grid s) c = Ret true) /\
  (render s = RUnlockGrid -> reports s = [] /\ gm_changed_cells (om_grid (grid s)) = []).
Proof. exact display_right. Qed.
Print Assumptions C59_display.

(** The map, model and parameters of the program, right after a report has been consumed. *)
Theorem C59_display_in_program : forall ln rec m tr s, ln_special ln -> lidar_default ln = Ret m -> recorded rec ->
  Forall (fun c => request_ok 3 DEFAULT_RESOLUTION (pc_bounds c)) (clouds rec) ->
  reaches rec 3 m DEFAULT_RESOLUTION DEFAULT_TILE_SIZE tr s -> corner_kept tr -> existsb panicked (workers s) = false -> render s = RUnlockGrid ->
  forall c, cells_in_isize c -> (exists p, In (c, p) (tracked s)) <-> om_occupied (grid s) c = Ret true.
Proof. exact display_in_program. Qed.
Print Assumptions C59_display_in_program.

(** The proviso is needed: when the lower corner moves, a cell that is not occupied stays
    on display. *)
Theorem C59_without_proviso_refuted : exists tr s c p, reaches rec_down 2 ex_lidar tenth 4 tr s /\ existsb panicked (workers s) = false /\
  render s = RUnlockGrid /\ reports s = [] /\ gm_changed_cells (om_grid (grid s)) = [] /\ cells_in_isize c /\
  In (c, p) (tracked s) /\ om_occupied (grid s) c = Ret false.
Proof. exact ex_stale. Qed.
Print Assumptions C59_without_proviso_refuted.

Example C59_example : (recorded rec_up /\ Forall (fun c => request_ok 2 tenth (pc_bounds c)) (clouds rec_up) /\
    fltb (occupied_threshold_logodds ex_lidar) f0 = false) /\
  exists tr s, reaches rec_up 2 ex_lidar tenth 4 tr s /\ corner_kept tr /\
  render s = RUnlockGrid /\ existsb panicked (workers s) = false /\ length (started tr) = 2%nat /\
  (exists p, In ([2; 0], p) (tracked s)) /\ (exists p, In ([3; 0], p) (tracked s)) /\ om_occupied (grid s) [1; 0] = Ret false.
Proof. exact (conj (conj rec_up_ok (conj rec_up_requests eq_refl)) ex_two_frames). Qed.

Theorem C60_frozen_not_crashed : forall rec d m r t tr s tr' s', recorded rec -> reaches rec d m r t tr s ->
  existsb panicked (workers s) = true -> run rec s tr' s' ->
  Forall (eq (EFrame (tracked s))) tr' /\ render s' <> RPanicked /\ moves rec Render s'.
Proof. exact panicked_frozen. Qed.
Print Assumptions C60_frozen_not_crashed.

Example C60_example : recorded rec_bad /\
  exists tr s, reaches rec_bad 2 ex_lidar tenth 4 tr s /\ existsb panicked (workers s) = true.
Proof. exact (conj rec_bad_ok ex_panicked). Qed.

Theorem C61_cyclic : forall rec d m r t tr s k o c, recorded rec -> reaches rec d m r t tr s -> nth_error (started tr) k = Some (o, c) ->
  nth_error (origins rec) (k mod length (clouds rec)) = Some o /\ nth_error (clouds rec) (k mod length (clouds rec)) = Some c.
Proof. exact cyclic_run. Qed.
Print Assumptions C61_cyclic.

(** Without clouds nothing is started or drawn, and the render thread goes on until it panics. *)
Theorem C61_no_frames : forall rec d m r t tr s, clouds rec = [] -> reaches rec d m r t tr s ->
  Forall (eq (EConsume [])) tr /\ (render s = RPanicked \/ moves rec Render s).
Proof. exact empty_run. Qed.
Print Assumptions C61_no_frames.

(** Pose and cloud of the same index belong together. *)
Theorem C61_paired : forall P (h : P -> list (list f32)) poses cl cl', prepare h poses cl = Ret cl' ->
  length cl = length poses /\ length cl' = length poses /\
  forall i p c, nth_error poses i = Some p -> nth_error cl i = Some c -> nth_error cl' i = Some (pc_transform (h p) c).
Proof. exact prepare_spec. Qed.
Print Assumptions C61_paired.

Theorem C61_lengths_checked : forall P (h : P -> list (list f32)) poses cl, prepare h poses cl = Panic <-> length cl <> length poses.
Proof. exact prepare_panics. Qed.
Print Assumptions C61_lengths_checked.

Example C61_example : (exists tr s, reaches rec_none 2 ex_lidar tenth 4 tr s /\ render s = RPanicked) /\
  exists tr s, reaches rec_up 2 ex_lidar tenth 4 tr s /\ corner_kept tr /\
  render s = RUnlockGrid /\ existsb panicked (workers s) = false /\ length (started tr) = 2%nat /\
  (exists p, In ([2; 0], p) (tracked s)) /\ (exists p, In ([3; 0], p) (tracked s)) /\ om_occupied (grid s) [1; 0] = Ret false.
Proof. exact (conj ex_none ex_two_frames). Qed.

(** A recording in range: no thread ever panics, and a started worker can always go on. *)
Theorem C69_never_panics : forall rec d r t m tr s, recording_ok d r t rec -> limit_near (max_range m) r -> reaches rec d m r t tr s ->
  existsb panicked (workers s) = false /\ render s <> RPanicked /\
  forall newer w older, workers s = newer ++ w :: older -> alive w = true -> moves rec (Worker (length older)) s.
Proof. exact program_safe. Qed.
Print Assumptions C69_never_panics.

(** At any time the map is the result of integrating the frames of the recording in turn, one
    after the other, up to the one that is being worked on. *)
Theorem C69_map : forall rec d r t m tr s, recording_ok d r t rec -> limit_near (max_range m) r -> reaches rec d m r t tr s ->
  exists L rest, started tr = L ++ rest /\ length L = integrations tr /\ (length rest <= 1)%nat /\ scanned d r t m (grid s) L.
Proof. exact program_map. Qed.
Print Assumptions C69_map.

(** Under a fair scheduler integration never stops. *)
Theorem C69_live : forall rec d r t m o st th ev, recording_ok d r t rec -> limit_near (max_range m) r -> om_new d m r t = Ret o ->
  execution rec o st th ev -> fair rec st th -> forall q, exists n, (q <= integrations (observed_until ev n))%nat.
Proof. exact live. Qed.
Print Assumptions C69_live.

(** A cell about which the frames agree gets the state they agree on, and keeps it. *)
Theorem C69_settles : forall rec d r t m o st th ev, recording_ok d r t rec -> limit_near (max_range m) r -> om_new d m r t = Ret o ->
  execution rec o st th ev -> fair rec st th -> forall w b vs, length w = d -> signs_ok m ->
  Forall2 (says (max_range m) r w) (combine (origins rec) (clouds rec)) vs -> Forall (fun v => v = None \/ v = Some b) vs -> Exists (fun v => v <> None) vs ->
  (if b then fltb (occupied_threshold_logodds m) (evidence m f0 true) = true else fle f0 (occupied_threshold_logodds m)) ->
  exists N, forall n, (N <= n)%nat -> exists cb, covers_cells d r t (om_grid (grid (st n))) cb /\ in_box cb w /\
    om_occupied (grid (st n)) (map2 Z.sub w (cmin cb)) = Ret b.
Proof. exact settled. Qed.
Print Assumptions C69_settles.

(** So does the display, if no later frame reaches below the first. *)
Theorem C69_displayed : forall rec d r t m o st th ev w b vs, recording_ok d r t rec -> limit_near (max_range m) r -> first_lowest rec ->
  om_new d m r t = Ret o -> execution rec o st th ev -> fair rec st th -> length w = d -> signs_ok m ->
  Forall2 (says (max_range m) r w) (combine (origins rec) (clouds rec)) vs -> Forall (fun v => v = None \/ v = Some b) vs -> Exists (fun v => v <> None) vs ->
  (if b then fltb (occupied_threshold_logodds m) (evidence m f0 true) = true else fle f0 (occupied_threshold_logodds m)) ->
  fltb (occupied_threshold_logodds m) f0 = false ->
  exists N, forall n, (N <= n)%nat -> exists cb, covers_cells d r t (om_grid (grid (st n))) cb /\ in_box cb w /\
    ((exists p, In (map2 Z.sub w (cmin cb), p) (tracked (st n))) <-> b = true) /\
    (forall p, In (map2 Z.sub w (cmin cb), p) (tracked (st n)) -> near_cell r w p).
Proof. exact displayed_static. Qed.
Print Assumptions C69_displayed.

(** The same with the parameters and the noise model of the program. *)
Theorem C69_in_program : forall ln rec o st th ev w b vs, ln_special ln -> ln_monotone ln -> (forall x, fltb f1 x = true -> fltb f0 (ln x) = true) ->
  om_default 3 ln = Ret o -> recording_ok 3 DEFAULT_RESOLUTION DEFAULT_TILE_SIZE rec -> first_lowest rec ->
  execution rec o st th ev -> fair rec st th -> length w = 3%nat ->
  Forall2 (says DEFAULT_MAX_RANGE DEFAULT_RESOLUTION w) (combine (origins rec) (clouds rec)) vs ->
  Forall (fun v => v = None \/ v = Some b) vs -> Exists (fun v => v <> None) vs ->
  exists N, forall n, (N <= n)%nat -> exists cb, covers_cells 3 DEFAULT_RESOLUTION DEFAULT_TILE_SIZE (om_grid (grid (st n))) cb /\ in_box cb w /\
    ((exists p, In (map2 Z.sub w (cmin cb), p) (tracked (st n))) <-> b = true) /\
    (forall p, In (map2 Z.sub w (cmin cb), p) (tracked (st n)) -> near_cell DEFAULT_RESOLUTION w p).
Proof. exact displayed_in_program. Qed.
Print Assumptions C69_in_program.

(** Fair executions exist. *)
Theorem C69_fair_exists : forall rec d r t m o, recording_ok d r t rec -> limit_near (max_range m) r -> om_new d m r t = Ret o ->
  exists st th ev, execution rec o st th ev /\ fair rec st th.
Proof. exact fair_exists. Qed.
Print Assumptions C69_fair_exists.

Example C69_example : recording_ok 2 tenth 4 rec_static /\ first_lowest rec_static /\ limit_near (max_range ex_lidar) tenth /\ signs_ok ex_lidar /\
  fltb (occupied_threshold_logodds ex_lidar) (evidence ex_lidar f0 true) = true /\ fle f0 (occupied_threshold_logodds ex_lidar) /\
  fltb (occupied_threshold_logodds ex_lidar) f0 = false /\
  (exists o st th ev, om_new 2 ex_lidar tenth 4 = Ret o /\ execution rec_static o st th ev /\ fair rec_static st th) /\
  Forall2 (says (max_range ex_lidar) tenth [2; 0]) (combine (origins rec_static) (clouds rec_static)) [Some true; Some true] /\
  Forall2 (says (max_range ex_lidar) tenth [1; 0]) (combine (origins rec_static) (clouds rec_static)) [Some false; Some false] /\
  Forall2 (says (max_range ex_lidar) tenth [1; 2]) (combine (origins rec_static) (clouds rec_static)) [Some true; None].
Proof. exact (conj rec_static_ok (conj rec_static_lowest (conj (proj1 ex_scan_world) (conj ex_signs (conj eq_refl (conj eq_refl (conj eq_refl (conj ex_execution rec_static_says)))))))). Qed.
