(** C85: how large a map gets. *)
From Coq Require Import ZArith List Bool Reals.
From Flocq Require Import Core BinarySingleNaN.
From Verif Require Import Base F32 Arith Geom NdArray GridMap RayCaster NoiseModel Spec SpecMap SpecNoise SpecOdds Viz SpecViz SpecExtent ExtentProofs ExamplesMap ExamplesNoise ExamplesForget ExamplesSettle ExamplesLive ProgramProofs SettleProofs ExamplesExtent.
Open Scope Z_scope.

(** The map covers exactly the tiles of the cells of the smallest box around all requests. *)
Theorem C85_extent : forall A d r t bs h (g : grid_map A), map_range d r t -> grown d r t bs g -> hull d bs h ->
  exists k cb, box_cells r h k /\ covers_cells d r t g cb /\ Forall2 (tile_below t) (cmin k) (cmin cb) /\ Forall2 (tile_above t) (cmax k) (cmax cb).
Proof. exact extent. Qed.
Print Assumptions C85_extent.

(** So however a map has grown, requests with the same smallest box around them end in the same
    bounds and the same number of cells. *)
Theorem C85_same_hull : forall A B d r t bs bs' h (g : grid_map A) (g' : grid_map B), map_range d r t -> grown d r t bs g -> grown d r t bs' g' ->
  hull d bs h -> hull d bs' h -> gm_bounds g = gm_bounds g' /\ nd_shape (gm_data g) = nd_shape (gm_data g').
Proof. exact same_hull. Qed.
Print Assumptions C85_same_hull.

(** However many requests there have been, an axis has at most the cells between the outermost
    ones and two tiles more. *)
Theorem C85_size : forall A d r t bs (g : grid_map A) i x X, map_range d r t -> grown d r t bs g -> (i < d)%nat -> (x <= X)%R -> between i x X bs ->
  (0 <= IZR (nth i (nd_shape (gm_data g)) 0%Z) < (X - x) / real r + 2 / 5 + 2 * IZR t)%R.
Proof. exact size_bound. Qed.
Print Assumptions C85_size.

Example C85_example : (map_range 2 tenth 4 /\ (exists g : grid_map Z, grown 2 tenth 4 [ex_b1; ex_b2] g) /\ (exists g : grid_map Z, grown 2 tenth 4 [ex_around] g)) /\
  (hull 2 [ex_b1; ex_b2] ex_around /\ hull 2 [ex_around] ex_around) /\ between 0 (-1) 1 [ex_b1; ex_b2].
Proof. exact (conj (conj ex_map_range ex_grown) (conj ex_hull ex_between)). Qed.
(** The bound is sharp up to half a cell. *)
Example C85_example_sharp : exists g : grid_map Z, grown 2 tenth 4 [ex_thin] g /\ between 0 (3998 / 10000) (4001 / 10000) [ex_thin] /\
  nth 0 (nd_shape (gm_data g)) 0 = 8 /\ (8 > (4001 / 10000 - 3998 / 10000) / real tenth + 2 * 4 - / 100)%R.
Proof. exact ex_thin_size. Qed.

(** The size of a map does not depend on the order of the scans, nor on how often each was made,
    nor on the sensor. *)
Theorem C85_scans : forall d r t m m' o o' L L', map_range d r t -> scanned d r t m o L -> scanned d r t m' o' L' ->
  (forall s, In s (map snd L) <-> In s (map snd L')) -> gm_bounds (om_grid o) = gm_bounds (om_grid o') /\ nd_shape (gm_data (om_grid o)) = nd_shape (gm_data (om_grid o')).
Proof. exact same_scans. Qed.
Print Assumptions C85_scans.

(** The map of the visualizer never gets larger than the recording, however long it plays. *)
Theorem C85_program_size : forall rec d r t m tr s i x X, recording_ok d r t rec -> limit_near (max_range m) r -> reaches rec d m r t tr s ->
  (i < d)%nat -> (x <= X)%R -> between i x X (map pc_bounds (clouds rec)) ->
  (0 <= IZR (nth i (nd_shape (gm_data (om_grid (grid s)))) 0%Z) < (X - x) / real r + 2 / 5 + 2 * IZR t)%R.
Proof. exact program_size. Qed.
Print Assumptions C85_program_size.

(** Once every frame has been played its size is the same in all executions, and for ever. *)
Theorem C85_program_settles : forall rec d r t m m' tr tr' s s', recording_ok d r t rec -> limit_near (max_range m) r -> limit_near (max_range m') r ->
  reaches rec d m r t tr s -> reaches rec d m' r t tr' s' -> (length (clouds rec) <= integrations tr)%nat -> (length (clouds rec) <= integrations tr')%nat ->
  gm_bounds (om_grid (grid s)) = gm_bounds (om_grid (grid s')) /\ nd_shape (gm_data (om_grid (grid s))) = nd_shape (gm_data (om_grid (grid s'))).
Proof. exact size_settles. Qed.
Print Assumptions C85_program_settles.

Example C85_example_scans : exists o o', scanned 2 tenth 100 swing o [(ex_zero, ex_scan1); (ex_zero, ex_scan5)] /\
  scanned 2 tenth 100 swing o' [(ex_zero, ex_scan5); (ex_zero, ex_scan1); (ex_zero, ex_scan5)].
Proof. exact ex_scans. Qed.
Example C85_example_program : (recording_ok 2 tenth 100 rec_blink /\ limit_near (max_range swing) tenth) /\ length (clouds rec_blink) = 2%nat /\
  exists tr s tr' s', reaches rec_blink 2 swing tenth 100 tr s /\ reaches rec_blink 2 swing tenth 100 tr' s' /\
  integrations tr = 2%nat /\ integrations tr' = 3%nat /\ ~ reads_same (grid s) (grid s').
Proof. exact (conj (conj rec_blink_ok (proj2 swing_ok)) (conj eq_refl ex_program)). Qed.
