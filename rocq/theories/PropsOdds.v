(** C75, C76: changed scenes, and the accuracy of log-odds. *)
From Coq Require Import ZArith List Bool Reals Lra Lia.
From Flocq Require Import Core BinarySingleNaN.
From Verif Require Import Base F32 Arith Geom NdArray GridMap RayCaster NoiseModel Spec SpecMap SpecNoise SpecOdds OddsProofs ForgetProofs Examples ExamplesMap ExamplesNoise ExamplesForget.
Open Scope R_scope.

(** Whatever was seen before ([vs0]), enough scans that only cross the cell make it free, and
    enough scans that hit it make it occupied. *)
Theorem C75_forgets : forall d r t m o L w vs0 vs1, map_range d r t -> limit_near (max_range m) r -> signs_ok m -> moderate_model m ->
  scanned d r t m o L -> length w = d -> Forall2 (says (max_range m) r w) L (vs0 ++ vs1) ->
  let thr := real (occupied_threshold_logodds m) in
  exists cb, covers_cells d r t (om_grid o) cb /\
    (Forall (fun v => v = None \/ v = Some false) vs1 -> (1 <= seen false vs1)%nat -> counts m (- real (miss_logodds m)) ->
     real (min_logodds m) <= thr -> real (max_logodds m) - thr <= INR (seen false vs1) * (1023 / 1024 * - real (miss_logodds m)) ->
     in_box cb w /\ om_occupied o (map2 Z.sub w (cmin cb)) = Ret false) /\
    (Forall (fun v => v = None \/ v = Some true) vs1 -> (1 <= seen true vs1)%nat -> counts m (real (hit_logodds m)) ->
     thr < real (max_logodds m) -> thr - real (min_logodds m) < INR (seen true vs1) * (1023 / 1024 * real (hit_logodds m)) ->
     in_box cb w /\ om_occupied o (map2 Z.sub w (cmin cb)) = Ret true).
Proof. exact forgets. Qed.
Print Assumptions C75_forgets.

Example C75_example : map_range 2 tenth 100 /\ limit_near (max_range ex_lidar) tenth /\ signs_ok ex_lidar /\ moderate_model ex_lidar /\
  counts ex_lidar (- real (miss_logodds ex_lidar)) /\ counts ex_lidar (real (hit_logodds ex_lidar)) /\
  (let thr := real (occupied_threshold_logodds ex_lidar) in
   real (min_logodds ex_lidar) <= thr /\ real (max_logodds ex_lidar) - thr <= INR 9 * (1023 / 1024 * - real (miss_logodds ex_lidar)) /\
   thr < real (max_logodds ex_lidar) /\ thr - real (min_logodds ex_lidar) < INR 3 * (1023 / 1024 * real (hit_logodds ex_lidar))) /\
  (exists o, scanned 2 tenth 100 ex_lidar o (removed 7 9)) /\ (exists o, scanned 2 tenth 100 ex_lidar o (added 14 3)) /\
  Forall2 (says (max_range ex_lidar) tenth [1; 2]%Z) (removed 7 9) (repeat (Some true) 7 ++ repeat (Some false) 9) /\
  Forall2 (says (max_range ex_lidar) tenth [1; 2]%Z) (added 14 3) (repeat (Some false) 14 ++ repeat (Some true) 3) /\
  seen false (repeat (Some false) 9) = 9%nat /\ seen true (repeat (Some true) 3) = 3%nat.
Proof. exact ex_forgets. Qed.

(** With the default probabilities nine scans that cross the cell, or three that hit it, are
    always enough. *)
Theorem C75_default : forall f, ln_accurate f -> exists m, lidar_default f = Ret m /\
  forall d r t o L w vs0 vs1, map_range d r t -> limit_near DEFAULT_MAX_RANGE r -> scanned d r t m o L -> length w = d ->
  Forall2 (says DEFAULT_MAX_RANGE r w) L (vs0 ++ vs1) ->
  exists cb, covers_cells d r t (om_grid o) cb /\
    (Forall (fun v => v = None \/ v = Some false) vs1 -> (9 <= seen false vs1)%nat ->
     in_box cb w /\ om_occupied o (map2 Z.sub w (cmin cb)) = Ret false) /\
    (Forall (fun v => v = None \/ v = Some true) vs1 -> (3 <= seen true vs1)%nat ->
     in_box cb w /\ om_occupied o (map2 Z.sub w (cmin cb)) = Ret true).
Proof. exact default_forgets. Qed.
Print Assumptions C75_default.

(** Fewer are not: after seven hits eight scans that cross the cell leave it occupied, and
    after fourteen crossings two hits leave it free. *)
Theorem C75_default_needs : forall f, ln_accurate f -> exists m, lidar_default f = Ret m /\
  forall d r t o L w vs0 vs1 vs2, map_range d r t -> limit_near DEFAULT_MAX_RANGE r -> scanned d r t m o L -> length w = d ->
  Forall2 (says DEFAULT_MAX_RANGE r w) L (vs0 ++ vs1 ++ vs2) ->
  exists cb, covers_cells d r t (om_grid o) cb /\
    (Forall (fun v => v = None \/ v = Some true) vs1 -> (7 <= seen true vs1)%nat ->
     Forall (fun v => v = None \/ v = Some false) vs2 -> (seen false vs2 <= 8)%nat ->
     in_box cb w /\ om_occupied o (map2 Z.sub w (cmin cb)) = Ret true) /\
    (Forall (fun v => v = None \/ v = Some false) vs1 -> (14 <= seen false vs1)%nat ->
     Forall (fun v => v = None \/ v = Some true) vs2 -> (seen true vs2 <= 2)%nat ->
     in_box cb w /\ om_occupied o (map2 Z.sub w (cmin cb)) = Ret false).
Proof. exact default_needs. Qed.
Print Assumptions C75_default_needs.

(** With the default model, the object that was seen seven times is still there after eight
    scans without it and is gone after nine; put there after fourteen scans, it is missing after two
    and there after three. *)
Example C75_default_example : ln_accurate near_ln /\ map_range 2 tenth 100 /\ limit_near DEFAULT_MAX_RANGE tenth /\
  forall m i j, max_range m = DEFAULT_MAX_RANGE ->
  (exists o, scanned 2 tenth 100 m o (removed i j)) /\ (exists o, scanned 2 tenth 100 m o (added i j)) /\
  Forall2 (says DEFAULT_MAX_RANGE tenth [1; 2]%Z) (removed i j) (repeat (Some true) i ++ repeat (Some false) j) /\
  Forall2 (says DEFAULT_MAX_RANGE tenth [1; 2]%Z) (added i j) (repeat (Some false) i ++ repeat (Some true) j).
Proof. exact (conj near_ln_accurate (conj ex_range100 (conj ex_limit60 ex_changed))). Qed.

Theorem C76_logodds : forall f p, ln_accurate f -> finite p -> bpow radix2 (-100) <= real p < 1 ->
  let l := logodds_from_probability F32A f p in
  finite l /\ Rabs (real l - exact_logodds (real p)) <= bpow radix2 (-22) * (1 + Rabs (exact_logodds (real p))).
Proof. exact logodds_accurate. Qed.
Print Assumptions C76_logodds.

Theorem C76_probability : forall f l, exp_accurate f -> finite l -> Rabs (real l) <= 64 ->
  let p := probability_from_logodds F32A f l in
  finite p /\ 0 <= real p <= 1 /\ Rabs (real p - exact_probability (real l)) <= bpow radix2 (-22).
Proof. exact probability_near. Qed.
Print Assumptions C76_probability.

Theorem C76_roundtrip : forall f g p, ln_accurate f -> exp_accurate g -> finite p -> bpow radix2 (-80) <= real p < 1 ->
  let q := probability_from_logodds F32A g (logodds_from_probability F32A f p) in
  finite q /\ Rabs (real q - real p) <= bpow radix2 (-21).
Proof. exact roundtrip_accurate. Qed.
Print Assumptions C76_roundtrip.

Example C76_example : ln_accurate near_ln /\ exp_accurate near_exp /\
  (let p := f32_lit 7 10 in finite p /\ bpow radix2 (-80) <= real p < 1) /\
  (let l := f32_lit (-2) 1 in finite l /\ Rabs (real l) <= 64).
Proof. exact (conj near_ln_accurate (conj near_exp_accurate ex_odds)). Qed.
