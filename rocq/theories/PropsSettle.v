(** C77: a recording played round and round. *)
From Coq Require Import ZArith List Bool Reals Lra Lia.
From Flocq Require Import Core BinarySingleNaN.
From Verif Require Import Base F32 Arith Geom NdArray GridMap RayCaster NoiseModel Spec SpecMap SpecNoise SpecOdds OddsProofs Examples ExamplesMap ExamplesNoise Viz SpecViz MainProofs SettleProofs ExamplesSettle.
Open Scope Z_scope.

(** Scans integrated round and round, in whatever order the sets of cells are iterated: after
    [2^32 + 1] rounds each further round leaves every cell of the map as it was. *)
Theorem C77_settles : forall d r t m scans X K, map_range d r t -> addable m ->
  Forall (fun s => matrix_ok (snd s) /\ request_ok d r (pc_bounds (snd s))) scans -> replayed d r t m scans X K ->
  forall k, length scans <> O -> Z.of_nat (length scans) * (2 ^ 32 + 1) <= Z.of_nat k -> (k + length scans <= K)%nat ->
  reads_same (X k) (X (k + length scans)%nat).
Proof. exact replay_settles. Qed.
Print Assumptions C77_settles.

(** So does the map of the running program, however its threads are scheduled. *)
Theorem C77_program : forall rec d r t m, recording_ok d r t rec -> limit_near (max_range m) r -> forall tr s tr' s', addable m ->
  reaches rec d m r t tr s -> run rec s tr' s' ->
  Z.of_nat (length (clouds rec)) * (2 ^ 32 + 1) <= Z.of_nat (integrations tr) -> integrations tr' = length (clouds rec) -> reads_same (grid s) (grid s').
Proof. exact program_settles. Qed.
Print Assumptions C77_program.

(** And the cells on display, if the first cloud has the lowest corner. *)
Theorem C77_display : forall rec d r t m, recording_ok d r t rec -> limit_near (max_range m) r -> forall tr s tr' s', addable m -> first_lowest rec ->
  fltb (occupied_threshold_logodds m) f0 = false -> reaches rec d m r t tr s -> run rec s tr' s' ->
  Z.of_nat (length (clouds rec)) * (2 ^ 32 + 1) <= Z.of_nat (integrations tr) -> integrations tr' = length (clouds rec) ->
  render s = RUnlockGrid -> render s' = RUnlockGrid -> forall c p, cells_in_isize c -> In (c, p) (tracked s) <-> In (c, p) (tracked s').
Proof. exact display_settles. Qed.
Print Assumptions C77_display.

(** The default model, with any accurate logarithm, is such a model. *)
Theorem C77_in_program : forall f rec o tr s tr' s', ln_accurate f -> om_default 3 f = Ret o -> recording_ok 3 DEFAULT_RESOLUTION DEFAULT_TILE_SIZE rec ->
  run rec (initial o) tr s -> run rec s tr' s' ->
  Z.of_nat (length (clouds rec)) * (2 ^ 32 + 1) <= Z.of_nat (integrations tr) -> integrations tr' = length (clouds rec) ->
  reads_same (grid s) (grid s') /\
  (first_lowest rec -> render s = RUnlockGrid -> render s' = RUnlockGrid -> forall c p, cells_in_isize c -> In (c, p) (tracked s) <-> In (c, p) (tracked s')).
Proof. exact default_settles. Qed.
Print Assumptions C77_in_program.

(** Only whole rounds leave the map as it was: it need not become constant. *)
Theorem C77_constant_refuted : exists rec d r t m, recording_ok d r t rec /\ limit_near (max_range m) r /\ addable m /\ length (clouds rec) = 2%nat /\
  forall k, k <> O -> exists tr s tr' s', reaches rec d m r t tr s /\ run rec s tr' s' /\ integrations tr = k /\ integrations tr' = 1%nat /\ ~ reads_same (grid s) (grid s').
Proof. exact every_round_needed. Qed.
Print Assumptions C77_constant_refuted.

Example C77_example : recording_ok 2 tenth 100 rec_blink /\ first_lowest rec_blink /\ (addable swing /\ limit_near (max_range swing) tenth) /\
  Forall (fun s => matrix_ok (snd s) /\ request_ok 2 tenth (pc_bounds (snd s))) (combine (origins rec_blink) (clouds rec_blink)) /\
  (forall K, exists X, replayed 2 tenth 100 swing (combine (origins rec_blink) (clouds rec_blink)) X K) /\
  (forall k, exists tr s tr' s', reaches rec_blink 2 swing tenth 100 tr s /\ run rec_blink s tr' s' /\
    integrations tr = k /\ integrations tr' = length (clouds rec_blink) /\ render s = RUnlockGrid /\ render s' = RUnlockGrid).
Proof. exact (conj rec_blink_ok (conj rec_blink_lowest (conj swing_ok (conj blink_requests (conj blink_replayed blink_passed))))). Qed.

Example C77_in_program_example : forall k, exists rec o tr s tr' s', ln_accurate near_ln /\ om_default 3 near_ln = Ret o /\
  recording_ok 3 DEFAULT_RESOLUTION DEFAULT_TILE_SIZE rec /\ first_lowest rec /\ run rec (initial o) tr s /\ run rec s tr' s' /\
  integrations tr = k /\ integrations tr' = length (clouds rec) /\ render s = RUnlockGrid /\ render s' = RUnlockGrid.
Proof. exact still_passed. Qed.
