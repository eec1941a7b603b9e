(** Model of viz/src/bin/draw_occupancy_grid.rs: the render thread and the worker
    threads it spawns, as a transition system.  Atomic steps are the operations on the
    mutexes and the atomic flag and the computations between them.
    What is drawn: Draw.v.  Not modelled: window events (the render loop runs for ever), failure
    to spawn a thread.
    All flag accesses are Relaxed.  The interleaving semantics is adequate: a load that
    reads [true] cannot come before the worker's critical sections, because the
    locking would then order the load before the store it reads; see DESIGN.md. *)
From Coq Require Import ZArith List Bool.
From Flocq Require Import Core BinarySingleNaN.
From Verif Require Import Base F32 Arith Geom NdArray GridMap RayCaster NoiseModel SpecNoise.
Open Scope Z_scope.

(** Lines 121-126 of main.  [homogeneous] is Isometry3::to_homogeneous, the 4x4 matrix of
    a pose. *)
Definition prepare {P} (homogeneous : P -> list (list f32)) (poses : list P) (clouds : list matrix)
  : outcome (list matrix) :=
  do _ <- oassert (Nat.eqb (length clouds) (length poses));
  Ret (map2 (fun c p => pc_transform (homogeneous p) c) clouds poses).

(** Lines 45-46: the recorded data, AppState::poses (only the translations, line 79,
    are used outside of drawing) and AppState::point_clouds. *)
Record recording : Type := mkRec { origins : list point; clouds : list matrix }.

(** Threads: the render thread, and the workers numbered in the order they are spawned. *)
Inductive thread : Type := Render | Worker (k : nat).

(** Where the render thread is, in step (98-105) and integrate_next_pointcloud (53-94). *)
Inductive rpc : Type :=
| RLoad           (* 54 *)
| RLockReports    (* 58 *)
| RLockGrid       (* 59 *)
| RConsume        (* 60-73 *)
| RUnlockGrid     (* 74, guards are dropped in reverse order *)
| RUnlockReports  (* 74 *)
| RStore          (* 75-77 *)
| RSpawn          (* 78-92 *)
| RIndex          (* 93 *)
| RDraw           (* 100-104 *)
| RPanicked.
(** Where a worker is (82-92). *)
Inductive wpc : Type :=
| WLockGrid       (* 82 *)
| WTrack          (* 83 *)
| WIntegrate      (* 84 *)
| WLockReports    (* 86 *)
| WReport         (* 87 *)
| WUnlockReports  (* 88 *)
| WClear          (* 89 *)
| WUntrack        (* 90 *)
| WStore          (* 91 *)
| WUnlockGrid     (* 92 *)
| WDone
| WPanicked.
Record worker : Type := mkWorker { w_origin : point; w_cloud : matrix; w_pc : wpc }.
Definition at_pc (w : worker) (pc : wpc) : worker := mkWorker (w_origin w) (w_cloud w) pc.

(** A mutex: owner, poisoned or not. *)
Record mutex : Type := mkMutex { owner : option thread; poisoned : bool }.
Definition held_by (t : thread) : mutex := mkMutex (Some t) false.
Definition free_mutex : mutex := mkMutex None false.
Definition poisoned_mutex : mutex := mkMutex None true.

(** HashMap<Cell3, Point3>: a list of entries with distinct keys. *)
Definition display := list (cell * point).
Definition shows (t : display) (c : cell) : bool := existsb (fun e => cell_eqb (fst e) c) t.
Definition hide (t : display) (c : cell) : display := filter (fun e => negb (cell_eqb (fst e) c)) t.

(** Lines 28-32 and 44-50.  [workers] is newest first, so that the number of a worker is
    the number of workers after it. *)
Record state : Type := mkState {
  grid : occ_map;
  grid_lock : mutex;
  reports : list cell;
  reports_lock : mutex;
  finished : bool;
  index : nat;
  tracked : display;
  render : rpc;
  workers : list worker
}.

(** Lines 60-72 *)
Definition consume1 (o : occ_map) (t : display) (c : cell) : outcome display :=
  do occ <- om_occupied o c;
  Ret (if occ then (if shows t c then t else (c, gm_point_from_cell (om_grid o) c) :: t)
       else (if shows t c then hide t c else t)).
Definition consume (o : occ_map) (cells : list cell) (t : display) : outcome display := ofold (consume1 o) t cells.

Definition track (o : occ_map) (x : bool) : occ_map := mkOcc (gm_set_track_changes (om_grid o) x) (om_model o).
Definition clear (o : occ_map) : occ_map := mkOcc (gm_clear_changed_cells (om_grid o)) (om_model o).

(** What can be observed of a step. *)
Inductive event : Type :=
| EConsume (cells : list cell)                 (* the render thread has processed a report *)
| EStart (origin : point) (cloud : matrix)     (* a worker is spawned *)
| EIntegrate (before after : occ_map)          (* a worker has integrated its cloud *)
| EReport (cells : list cell)                  (* a worker has reported its cells *)
| EFrame (shown : display).                    (* the render thread has drawn a frame *)

Section Steps.
Context (rec : recording).

(** Updates of a state. *)
Definition set_render (s : state) (pc : rpc) : state :=
  mkState (grid s) (grid_lock s) (reports s) (reports_lock s) (finished s) (index s) (tracked s) pc (workers s).
Definition set_grid_lock (s : state) (m : mutex) : state :=
  mkState (grid s) m (reports s) (reports_lock s) (finished s) (index s) (tracked s) (render s) (workers s).
Definition set_reports_lock (s : state) (m : mutex) : state :=
  mkState (grid s) (grid_lock s) (reports s) m (finished s) (index s) (tracked s) (render s) (workers s).
Definition set_reports (s : state) (l : list cell) : state :=
  mkState (grid s) (grid_lock s) l (reports_lock s) (finished s) (index s) (tracked s) (render s) (workers s).
Definition set_tracked (s : state) (t : display) : state :=
  mkState (grid s) (grid_lock s) (reports s) (reports_lock s) (finished s) (index s) t (render s) (workers s).
Definition set_finished (s : state) (b : bool) : state :=
  mkState (grid s) (grid_lock s) (reports s) (reports_lock s) b (index s) (tracked s) (render s) (workers s).
Definition set_index (s : state) (i : nat) : state :=
  mkState (grid s) (grid_lock s) (reports s) (reports_lock s) (finished s) i (tracked s) (render s) (workers s).
Definition set_workers (s : state) (w : list worker) : state :=
  mkState (grid s) (grid_lock s) (reports s) (reports_lock s) (finished s) (index s) (tracked s) (render s) w.
Definition set_grid (s : state) (o : occ_map) : state :=
  mkState o (grid_lock s) (reports s) (reports_lock s) (finished s) (index s) (tracked s) (render s) (workers s).

(** One step of the render thread. *)
Inductive render_step (s : state) : list event -> state -> Prop :=
| r_busy : render s = RLoad -> finished s = false -> render_step s [] (set_render s RDraw)
| r_ready : render s = RLoad -> finished s = true -> render_step s [] (set_render s RLockReports)
| r_lock_reports : render s = RLockReports -> owner (reports_lock s) = None -> poisoned (reports_lock s) = false ->
    render_step s [] (set_render (set_reports_lock s (held_by Render)) RLockGrid)
| r_reports_poisoned : render s = RLockReports -> owner (reports_lock s) = None -> poisoned (reports_lock s) = true ->
    render_step s [] (set_render s RPanicked)
| r_lock_grid : render s = RLockGrid -> owner (grid_lock s) = None -> poisoned (grid_lock s) = false ->
    render_step s [] (set_render (set_grid_lock s (held_by Render)) RConsume)
| r_grid_poisoned : render s = RLockGrid -> owner (grid_lock s) = None -> poisoned (grid_lock s) = true ->
    render_step s [] (set_render s RPanicked)
| r_consume : forall t, render s = RConsume -> consume (grid s) (reports s) (tracked s) = Ret t ->
    render_step s [EConsume (reports s)] (set_render (set_reports (set_tracked s t) []) RUnlockGrid)
| r_consume_panics : render s = RConsume -> consume (grid s) (reports s) (tracked s) = Panic ->
    render_step s [] (set_render s RPanicked)
| r_unlock_grid : render s = RUnlockGrid -> render_step s [] (set_render (set_grid_lock s free_mutex) RUnlockReports)
| r_unlock_reports : render s = RUnlockReports -> render_step s [] (set_render (set_reports_lock s free_mutex) RStore)
| r_store : render s = RStore -> render_step s [] (set_render (set_finished s false) RSpawn)
| r_spawn : forall o c, render s = RSpawn -> nth_error (origins rec) (index s) = Some o ->
    nth_error (clouds rec) (index s) = Some c ->
    render_step s [EStart o c] (set_render (set_workers s (mkWorker o c WLockGrid :: workers s)) RIndex)
| r_no_frame : render s = RSpawn ->
    nth_error (origins rec) (index s) = None \/ nth_error (clouds rec) (index s) = None ->
    render_step s [] (set_render s RPanicked)
| r_index : render s = RIndex -> length (clouds rec) <> 0%nat ->
    render_step s [] (set_render (set_index s ((index s + 1) mod length (clouds rec))) RDraw)
| r_draw : render s = RDraw -> nth_error (origins rec) (index s) <> None ->
    render_step s [EFrame (tracked s)] (set_render s RLoad)
| r_no_pose : render s = RDraw -> nth_error (origins rec) (index s) = None ->
    render_step s [] (set_render s RPanicked).

(** One step of worker [w], whose number is [k]: the worker and the state after it. *)
Inductive work (s : state) (k : nat) (w : worker) : list event -> wpc -> state -> Prop :=
| w_lock_grid : w_pc w = WLockGrid -> owner (grid_lock s) = None -> poisoned (grid_lock s) = false ->
    work s k w [] WTrack (set_grid_lock s (held_by (Worker k)))
| w_grid_poisoned : w_pc w = WLockGrid -> owner (grid_lock s) = None -> poisoned (grid_lock s) = true ->
    work s k w [] WPanicked s
| w_track : w_pc w = WTrack -> work s k w [] WIntegrate (set_grid s (track (grid s) true))
| w_integrate : forall fuel of oo o', w_pc w = WIntegrate -> is_order of -> is_order oo ->
    om_integrate fuel of oo (grid s) (w_origin w) (w_cloud w) = Ret o' ->
    work s k w [EIntegrate (grid s) o'] WLockReports (set_grid s o')
  (* the map is left in some state; the mutex is poisoned *)
| w_integrate_panics : forall fuel of oo o', w_pc w = WIntegrate -> is_order of -> is_order oo ->
    om_integrate fuel of oo (grid s) (w_origin w) (w_cloud w) = Panic ->
    work s k w [] WPanicked (set_grid_lock (set_grid s o') poisoned_mutex)
| w_lock_reports : w_pc w = WLockReports -> owner (reports_lock s) = None -> poisoned (reports_lock s) = false ->
    work s k w [] WReport (set_reports_lock s (held_by (Worker k)))
| w_reports_poisoned : w_pc w = WLockReports -> owner (reports_lock s) = None -> poisoned (reports_lock s) = true ->
    work s k w [] WPanicked (set_grid_lock s poisoned_mutex)
| w_report : w_pc w = WReport ->
    work s k w [EReport (gm_changed_cells (om_grid (grid s)))] WUnlockReports
         (set_reports s (gm_changed_cells (om_grid (grid s))))
| w_unlock_reports : w_pc w = WUnlockReports -> work s k w [] WClear (set_reports_lock s free_mutex)
| w_clear : w_pc w = WClear -> work s k w [] WUntrack (set_grid s (clear (grid s)))
| w_untrack : w_pc w = WUntrack -> work s k w [] WStore (set_grid s (track (grid s) false))
| w_store : w_pc w = WStore -> work s k w [] WUnlockGrid (set_finished s true)
| w_unlock_grid : w_pc w = WUnlockGrid -> work s k w [] WDone (set_grid_lock s free_mutex).

(** A step of the program: any thread that can move may move.  (A panic of the render
    thread, which is the main thread, ends the program; the steps workers could still take
    before that are included.) *)
Inductive step (s : state) : thread -> list event -> state -> Prop :=
| s_render : forall ev s', render_step s ev s' -> step s Render ev s'
| s_worker : forall newer w older ev pc s', workers s = newer ++ w :: older ->
    work s (length older) w ev pc s' ->
    step s (Worker (length older)) ev (set_workers s' (newer ++ at_pc w pc :: older)).

(** Runs from the initial state (132-138), with what was observed. *)
Definition initial (o : occ_map) : state := mkState o free_mutex [] free_mutex true 0 [] RLoad [].
Inductive run (s : state) : list event -> state -> Prop :=
| run_start : run s [] s
| run_step : forall tr s1 t ev s2, run s tr s1 -> step s1 t ev s2 -> run s (tr ++ ev) s2.
End Steps.
