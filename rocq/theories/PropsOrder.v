(** C78: the order of scans. *)
From Coq Require Import ZArith List Bool Reals Lra Lia Permutation.
From Flocq Require Import Core BinarySingleNaN.
From Verif Require Import Base F32 Arith Geom NdArray GridMap RayCaster NoiseModel Spec SpecMap SpecNoise SpecOdds OddsProofs OrderProofs Examples ExamplesMap ExamplesNoise ExamplesForget ExamplesOrder.
Open Scope R_scope.

(** As long as the evidence stays clear of the limits, the value of a cell is the sum of the
    evidence, up to one rounding for each scan that saw the cell. *)
Theorem C78_sum : forall d r t m o L w vs, map_range d r t -> limit_near (max_range m) r -> signs_ok m -> moderate_model m ->
  scanned d r t m o L -> length w = d -> Forall2 (says (max_range m) r w) L vs ->
  let a := seen true vs in let b := seen false vs in unlimited m a b -> (0 < a + b)%nat ->
  exists cb v, covers_cells d r t (om_grid o) cb /\ in_box cb w /\ gm_get (om_grid o) (map2 Z.sub w (cmin cb)) = Ret v /\ finite v /\
    Rabs (real v - added_up m a b) <= slack m (a + b).
Proof. exact order_value. Qed.
Print Assumptions C78_sum.

(** So two maps made of the same scans in different orders agree up to these roundings, and
    about the state of the cell if the sum is not that close to the threshold. *)
Theorem C78_any_order : forall d r t m o o' LV LV' w, map_range d r t -> limit_near (max_range m) r -> signs_ok m -> moderate_model m ->
  scanned d r t m o (map fst LV) -> scanned d r t m o' (map fst LV') -> Permutation LV LV' -> length w = d ->
  Forall (fun x => says (max_range m) r w (fst x) (snd x)) LV ->
  let a := seen true (map snd LV) in let b := seen false (map snd LV) in unlimited m a b -> (0 < a + b)%nat ->
  exists cb cb' v v', covers_cells d r t (om_grid o) cb /\ covers_cells d r t (om_grid o') cb' /\
    gm_get (om_grid o) (map2 Z.sub w (cmin cb)) = Ret v /\ gm_get (om_grid o') (map2 Z.sub w (cmin cb')) = Ret v' /\
    finite v /\ finite v' /\ Rabs (real v - real v') <= 2 * slack m (a + b) /\
    (slack m (a + b) < Rabs (added_up m a b - real (occupied_threshold_logodds m)) ->
     let s := if Rlt_dec (real (occupied_threshold_logodds m)) (added_up m a b) then true else false in
     om_occupied o (map2 Z.sub w (cmin cb)) = Ret s /\ om_occupied o' (map2 Z.sub w (cmin cb')) = Ret s).
Proof. exact any_order. Qed.
Print Assumptions C78_any_order.

(** With the default model: up to four hits and four crossings, in whatever order, leave the
    cell occupied exactly if there are at most twice as many crossings as hits. *)
Theorem C78_default : forall f, ln_accurate f -> exists m, lidar_default f = Ret m /\
  forall d r t o L w vs, map_range d r t -> limit_near DEFAULT_MAX_RANGE r -> scanned d r t m o L -> length w = d -> Forall2 (says DEFAULT_MAX_RANGE r w) L vs ->
  let a := seen true vs in let b := seen false vs in (a <= 4)%nat -> (b <= 4)%nat -> (0 < a + b)%nat ->
  exists cb, covers_cells d r t (om_grid o) cb /\ in_box cb w /\ om_occupied o (map2 Z.sub w (cmin cb)) = Ret (b <=? 2 * a)%nat.
Proof. exact default_order. Qed.
Print Assumptions C78_default.

(** Beyond the limits the order matters. *)
Theorem C78_beyond_limits_refuted : exists f m d r t o o' LV LV' w cb cb', ln_accurate f /\ lidar_default f = Ret m /\ map_range d r t /\ limit_near (max_range m) r /\ length w = d /\
  scanned d r t m o (map fst LV) /\ scanned d r t m o' (map fst LV') /\ Permutation LV LV' /\
  Forall (fun x => says (max_range m) r w (fst x) (snd x)) LV /\
  covers_cells d r t (om_grid o) cb /\ covers_cells d r t (om_grid o') cb' /\
  om_occupied o (map2 Z.sub w (cmin cb)) = Ret false /\ om_occupied o' (map2 Z.sub w (cmin cb')) = Ret true.
Proof. exact order_matters. Qed.
Print Assumptions C78_beyond_limits_refuted.

Example C78_example : map_range 2 tenth 100 /\ limit_near (max_range ex_lidar) tenth /\ signs_ok ex_lidar /\ moderate_model ex_lidar /\
  ((exists o, scanned 2 tenth 100 ex_lidar o (map fst (first_there 2 3))) /\ (exists o, scanned 2 tenth 100 ex_lidar o (map fst (then_there 2 3))) /\
   Permutation (first_there 2 3) (then_there 2 3) /\ Forall (fun x => says (max_range ex_lidar) tenth [1; 2]%Z (fst x) (snd x)) (first_there 2 3) /\
   seen true (map snd (first_there 2 3)) = 2%nat /\ seen false (map snd (first_there 2 3)) = 3%nat) /\
  unlimited ex_lidar 2 3 /\ slack ex_lidar (2 + 3) < Rabs (added_up ex_lidar 2 3 - real (occupied_threshold_logodds ex_lidar)).
Proof.
  exact (conj ex_range100 (conj ex_limit60 (conj (proj1 (proj2 (proj2 ex_forgets))) (conj (proj1 (proj2 (proj2 (proj2 ex_forgets)))) (conj (two_orders ex_lidar 2 3 eq_refl) ex_order))))).
Qed.
Example C78_default_example : ln_accurate near_ln /\ exists m o, lidar_default near_ln = Ret m /\ scanned 2 tenth 100 m o (map fst (then_there 2 4)) /\
  Forall2 (says DEFAULT_MAX_RANGE tenth [1; 2]%Z) (map fst (then_there 2 4)) (map snd (then_there 2 4)) /\
  seen true (map snd (then_there 2 4)) = 2%nat /\ seen false (map snd (then_there 2 4)) = 4%nat.
Proof. exact (conj near_ln_accurate default_order_example). Qed.
