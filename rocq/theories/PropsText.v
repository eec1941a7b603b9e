(** C91: from the text of the files to the display. *)
From Coq Require Import ZArith List Bool Reals.
From Flocq Require Import Core BinarySingleNaN.
From Verif Require Import Base F32 F64 Arith Geom NdArray GridMap NoiseModel Kitti Spec SpecMap SpecNoise SpecKitti Viz SpecViz Pose SpecPose SpecMain Number SpecNumber SpecText MathProofs GpsProofs TextProofs Examples ExamplesKitti ExamplesPose ExamplesScene ExamplesText.
Open Scope Z_scope.

(** The numbers that the program gets from the files mean the scenes that the texts mean, up to a millimetre. *)
Theorem C91_scenes : forall s f xs ms, std_parsers s -> drive_text s f xs ms -> cos_accurate (sys_cos64 s) -> reasonable xs ms ->
  exists vs scs, drive s f vs ms /\ length vs = length xs /\ measured s vs ms /\ scenes_of s vs ms scs /\ Forall2 (near_scene (bpow radix2 (-10))) (scenes_said xs ms) scs.
Proof. exact text_near. Qed.
Print Assumptions C91_scenes.

(** The window opens. *)
Theorem C91_opens : forall s lookup args path xs ms, std_parsers s -> Forall is_text args -> nth_error args 1 = Some path -> drive_text s (lookup path) xs ms ->
  cos_accurate (sys_cos64 s) -> reasonable xs ms -> exists rec, viz_main s lookup args = Ret (Some rec).
Proof. exact text_opens. Qed.
Print Assumptions C91_opens.

(** No thread ever panics or gets stuck if all scenes within a millimetre of those in the texts leave room for rounding. *)
Theorem C91_never_panics : forall s lookup args path rec xs ms lm tr st, std_parsers s -> viz_main s lookup args = Ret (Some rec) -> nth_error args 1 = Some path -> drive_text s (lookup path) xs ms ->
  xs <> [] -> trig_accurate (sys_sin s) (sys_cos s) -> cos_accurate (sys_cos64 s) -> reasonable xs ms ->
  (forall scs, Forall2 (near_scene (bpow radix2 (-10))) (scenes_said xs ms) scs -> Forall (scene_clear (real DEFAULT_RESOLUTION)) scs) ->
  limit_near (max_range lm) DEFAULT_RESOLUTION -> reaches rec 3 lm DEFAULT_RESOLUTION DEFAULT_TILE_SIZE tr st ->
  existsb panicked (workers st) = false /\ render st <> RPanicked /\
  forall newer w older, workers st = newer ++ w :: older -> alive w = true -> moves rec (Worker (length older)) st.
Proof. exact text_safe. Qed.
Print Assumptions C91_never_panics.

(** A cell about which all scenes within a millimetre of those in the texts agree is on display, at
    its place, from some time on, or is not. *)
Theorem C91_displayed : forall s lookup args path rec xs ms ln o st th ev w b vals, std_parsers s -> viz_main s lookup args = Ret (Some rec) -> nth_error args 1 = Some path -> drive_text s (lookup path) xs ms ->
  xs <> [] -> trig_accurate (sys_sin s) (sys_cos s) -> cos_accurate (sys_cos64 s) -> reasonable xs ms ->
  (forall scs, Forall2 (near_scene (bpow radix2 (-10))) (scenes_said xs ms) scs ->
     Forall (scene_clear (real DEFAULT_RESOLUTION)) scs /\ lowest_first (real DEFAULT_RESOLUTION) scs /\ Forall2 (scene_says 60 (real DEFAULT_RESOLUTION) w) scs vals) ->
  ln_special ln -> ln_monotone ln -> (forall x, fltb f1 x = true -> fltb f0 (ln x) = true) ->
  om_default 3 ln = Ret o -> execution rec o st th ev -> fair rec st th -> length w = 3%nat ->
  Forall (fun v => v = None \/ v = Some b) vals -> Exists (fun v => v <> None) vals ->
  exists N, forall n, (N <= n)%nat -> exists cb, covers_cells 3 DEFAULT_RESOLUTION DEFAULT_TILE_SIZE (om_grid (grid (st n))) cb /\ in_box cb w /\
    ((exists p, In (map2 Z.sub w (cmin cb), p) (tracked (st n))) <-> b = true) /\
    (forall p, In (map2 Z.sub w (cmin cb), p) (tracked (st n)) -> near_cell DEFAULT_RESOLUTION w p).
Proof. exact text_displayed. Qed.
Print Assumptions C91_displayed.

(** Cells that are on display, that are not, and that no scene says anything about. *)
Example C91_example : std_parsers std_sys /\ drive_text std_sys (tx_lookup name02) tx_xs still_ms /\ tx_xs <> [] /\
  (trig_accurate (sys_sin std_sys) (sys_cos std_sys) /\ cos_accurate (sys_cos64 std_sys)) /\ reasonable tx_xs still_ms /\
  (forall scs, Forall2 (near_scene (bpow radix2 (-10))) (scenes_said tx_xs still_ms) scs ->
    Forall (scene_clear (real DEFAULT_RESOLUTION)) scs /\ lowest_first (real DEFAULT_RESOLUTION) scs /\
    Forall2 (scene_says 60 (real DEFAULT_RESOLUTION) [10; 10; 10]) scs [Some true; Some true] /\
    Forall2 (scene_says 60 (real DEFAULT_RESOLUTION) [5; 5; 5]) scs [Some false; Some false] /\
    Forall2 (scene_says 60 (real DEFAULT_RESOLUTION) [0; 20; 0]) scs [None; None]) /\
  (ln_special coarse_ln /\ ln_monotone coarse_ln /\ forall x, fltb f1 x = true -> fltb f0 (coarse_ln x) = true) /\
  Forall is_text [name10; name02] /\
  exists rec o st th ev, viz_main std_sys tx_lookup [name10; name02] = Ret (Some rec) /\ om_default 3 coarse_ln = Ret o /\ execution rec o st th ev /\ fair rec st th.
Proof.
  exact (conj tx_std (conj tx_drive (conj (fun H => nil_cons (eq_sym H)) (conj (conj ex_trig nearest_cos_accurate) (conj tx_reasonable (conj tx_conditions
    (conj (conj coarse_ln_special (conj coarse_ln_monotone coarse_ln_positive)) (conj (proj1 ex_args) tx_runs)))))))).
Qed.
