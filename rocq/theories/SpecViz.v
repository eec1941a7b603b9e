(** What the properties of the visualiser talk about. *)
From Coq Require Import ZArith List Bool Reals.
From Flocq Require Import Core BinarySingleNaN.
From Verif Require Import Base F32 Arith Geom NdArray GridMap RayCaster NoiseModel Spec SpecMap SpecNoise Viz.
Open Scope Z_scope.

(** The recording has frames, each with a pose and a cloud. *)
Definition recorded (rec : recording) : Prop :=
  length (origins rec) = length (clouds rec) /\ clouds rec <> [].

(** [s] is a state the program reaches, with [tr] observed on the way, starting with a new
    map.  The program uses d = 3 and the default model, resolution and tile size. *)
Definition reaches (rec : recording) (d : nat) (m : lidar) (r : f32) (t : Z) (tr : list event) (s : state) : Prop :=
  exists o, om_new d m r t = Ret o /\ run rec (initial o) tr s.

Definition moves (rec : recording) (t : thread) (s : state) : Prop := exists ev s', step rec s t ev s'.

Definition is_frame (e : event) : bool := match e with EFrame _ => true | _ => false end.
(** [quiet rec n s s']: from [s] to [s'] the render thread makes [n] steps without drawing a
    frame, while the workers do whatever they do. *)
Inductive quiet (rec : recording) : nat -> state -> state -> Prop :=
| q_start : forall s, quiet rec 0 s s
| q_render : forall n s s1 ev s2, quiet rec n s s1 -> step rec s1 Render ev s2 -> existsb is_frame ev = false ->
    quiet rec (S n) s s2
| q_worker : forall n s s1 k ev s2, quiet rec n s s1 -> step rec s1 (Worker k) ev s2 -> quiet rec n s s2.

Definition alive (w : worker) : bool := match w_pc w with WDone | WPanicked => false | _ => true end.
Definition panicked (w : worker) : bool := match w_pc w with WPanicked => true | _ => false end.

(** The order in which things happen: a report is consumed, exactly once and unchanged,
    before the next worker starts; a worker integrates, then reports the cells its
    integration has recorded. *)
Inductive stage : Type := Reported (l : list cell) | Consumed | Started | Integrated (o : occ_map).
Inductive protocol : list event -> stage -> Prop :=
| p_start : protocol [] (Reported [])
| p_frame : forall tr st t, protocol tr st -> protocol (tr ++ [EFrame t]) st
| p_consume : forall tr l, protocol tr (Reported l) -> protocol (tr ++ [EConsume l]) Consumed
| p_spawn : forall tr o c, protocol tr Consumed -> protocol (tr ++ [EStart o c]) Started
| p_integrate : forall tr o o', protocol tr Started -> protocol (tr ++ [EIntegrate o o']) (Integrated o')
| p_report : forall tr o, protocol tr (Integrated o) ->
    protocol (tr ++ [EReport (gm_changed_cells (om_grid o))]) (Reported (gm_changed_cells (om_grid o))).

(** The frames that workers have been started on, oldest first. *)
Fixpoint started (tr : list event) : list (point * matrix) :=
  match tr with
  | [] => []
  | EStart o c :: tr' => (o, c) :: started tr'
  | _ :: tr' => started tr'
  end.

(** The frames drawn, oldest first. *)
Fixpoint drawn (tr : list event) : list display :=
  match tr with
  | [] => []
  | EFrame t :: tr' => t :: drawn tr'
  | _ :: tr' => drawn tr'
  end.

(** No integration has moved the lower corner of a map with cells. *)
Definition corner_kept (tr : list event) : Prop :=
  forall o o', In (EIntegrate o o') tr ->
    bmin (gm_bounds (om_grid o)) = bmin (gm_bounds (om_grid o')) \/ (forall c v, gm_get (om_grid o) c <> Ret v).

(** A frame in range, whatever map it is integrated into: the coordinates are at most 2^14 cells
    away from zero, the sensor lies between the points, and the beams are as in [scan_ok]. *)
Definition frame_ok (d : nat) (r : f32) (o : point) (cloud : matrix) : Prop :=
  matrix_ok cloud /\ nrows cloud = d /\ length o = d /\
  Forall (within_cells (2 ^ 14) r) o /\ Forall (within_cells (2 ^ 14) r) (mdata cloud) /\
  inside (pc_bounds cloud) o /\ Forall2 (axis_safe r) o (bmax (pc_bounds cloud)) /\
  forall p, In p (pc_points cloud) ->
    Forall2 (axis_safe r) p (bmax (pc_bounds cloud)) /\
    Forall2 (fun x y => real x = real y \/ (bpow radix2 (-40) * real r <= Rabs (real x - real y))%R) o p /\
    Forall2 (fun x y => (Rabs (real x - real y) <= 1023 * real r)%R) o p /\ world_clear (/ 8)%R r o p.
Definition recording_ok (d : nat) (r : f32) (t : Z) (rec : recording) : Prop :=
  recorded rec /\ map_range d r t /\ t <= 2 ^ 13 /\ (bpow radix2 (-30) <= real r <= bpow radix2 30)%R /\
  Forall (fun f => frame_ok d r (fst f) (snd f)) (combine (origins rec) (clouds rec)).

(** The number of integrations done. *)
Fixpoint integrations (tr : list event) : nat :=
  match tr with
  | [] => 0
  | EIntegrate _ _ :: tr' => S (integrations tr')
  | _ :: tr' => integrations tr'
  end.

(** Infinite executions: the states, the thread that makes each step, and what is observed. *)
Record execution (rec : recording) (o : occ_map) (st : nat -> state) (th : nat -> thread) (ev : nat -> list event) : Prop := {
  ex_start : st O = initial o;
  ex_step : forall n, step rec (st n) (th n) (ev n) (st (S n))
}.
(** A thread that from some time on can always move, moves. *)
Definition fair (rec : recording) (st : nat -> state) (th : nat -> thread) : Prop :=
  forall t n, (forall k, (n <= k)%nat -> moves rec t (st k)) -> exists k, (n <= k)%nat /\ th k = t.
(** What is observed in the first [n] steps. *)
Fixpoint observed_until (ev : nat -> list event) (n : nat) : list event :=
  match n with O => [] | S k => observed_until ev k ++ ev k end.

(** No cloud reaches below the first on any axis.  (The zero point counts as a point of every
    cloud, see [pc_bounds].) *)
Definition first_lowest (rec : recording) : Prop :=
  forall c0 c, nth_error (clouds rec) 0 = Some c0 -> In c (clouds rec) ->
    Forall2 (fun x y => (real x <= real y)%R) (bmin (pc_bounds c0)) (bmin (pc_bounds c)).
