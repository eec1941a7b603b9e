(** C90: a ray and the ray back. *)
From Coq Require Import ZArith List Bool Reals.
From Flocq Require Import Core BinarySingleNaN.
From Verif Require Import Base F32 Arith Geom RayCaster Spec SpecBack BackProofs SameProofs ExamplesBack ExamplesSame.
Open Scope Z_scope.

(** In exact arithmetic the ray from [e] to [o] passes through the cells of the ray from [o] to [e], in the opposite order, unless
    the segment goes through a place where cells meet on two axes. *)
Theorem C90_exact : forall d (o e b : list R) r, (d = 2 \/ d = 3)%nat -> length o = d -> length e = d -> length b = d -> (0 < r)%R ->
  ends_inside b r o e -> ends_inside b r e o -> no_corner b r o e ->
  let oc := nearest_cell b r o in let ec := nearest_cell b r e in cells_in_isize oc -> cells_in_isize ec ->
  forall fuel m, (m <= 0)%R -> manhattan oc ec <= Z.of_nat fuel ->
  exists path path', cast_ray RealA fuel (map Fin o) (map Fin e) (map Fin b) (Fin r) (Fin m) = Ret (path, Some ec) /\
    cast_ray RealA fuel (map Fin e) (map Fin o) (map Fin b) (Fin r) (Fin m) = Ret (path', Some oc) /\ path' ++ [oc] = rev (path ++ [ec]).
Proof. exact back. Qed.
Print Assumptions C90_exact.

Example C90_exact_example : ends_inside [0; 0]%R 1 [0; 0]%R [4; 1]%R /\ ends_inside [0; 0]%R 1 [4; 1]%R [0; 0]%R /\ no_corner [0; 0]%R 1 [0; 0]%R [4; 1]%R /\
  nearest_cell [0; 0]%R 1 [0; 0]%R = [0; 0] /\ nearest_cell [0; 0]%R 1 [4; 1]%R = [4; 1].
Proof. exact bk_exact. Qed.

(** At a corner the later axis goes first both ways, so there and back are different. *)
Theorem C90_corner_refuted : exists (o e b : point) r, Forall finite o /\ Forall finite e /\ Forall finite b /\ r = f1 /\
  exists fuel path path' oc ec, cast_ray F32A fuel o e b r f0 = Ret (path, Some ec) /\ cast_ray F32A fuel e o b r f0 = Ret (path', Some oc) /\
  path ++ [ec] = [[0; 0]; [0; 1]; [1; 1]] /\ path' ++ [oc] = [[1; 1]; [1; 0]; [0; 0]].
Proof. exact bk_corner. Qed.
Print Assumptions C90_corner_refuted.

(** In f32 arithmetic there and back may be different even without a corner, when a corner is very near. *)
Theorem C90_f32_refuted : exists (o e b : point) r, real r = 1%R /\ no_corner (map real b) (real r) (map real o) (map real e) /\
  exists fuel path path' oc ec, cast_ray F32A fuel o e b r f0 = Ret (path, Some ec) /\ cast_ray F32A fuel e o b r f0 = Ret (path', Some oc) /\
  path ++ [ec] = [[0; 0]; [1; 0]; [1; 1]; [1; 2]; [2; 2]; [3; 2]; [3; 3]] /\ path' ++ [oc] = [[3; 3]; [3; 2]; [2; 2]; [2; 1]; [1; 1]; [1; 0]; [0; 0]].
Proof. exact bk_f32. Qed.
Print Assumptions C90_f32_refuted.

(** In f32 arithmetic there and back agree when the segment keeps a sixteenth of a cell away from corners, and its ends from borders. *)
Theorem C90_f32 : forall d (o e b : point) (r : f32), (d = 2 \/ d = 3)%nat -> length o = d -> length e = d -> length b = d ->
  ray_short r o e b -> end_clear (/ 16)%R r o e b -> end_clear (/ 16)%R r e o b -> no_corner_near (/ 16)%R (map real b) (real r) (map real o) (map real e) ->
  let oc := cell_from_point F32A o b r in let ec := cell_from_point F32A e b r in
  forall fuel m, fltb f0 m = false -> manhattan oc ec <= Z.of_nat fuel ->
  exists path path', cast_ray F32A fuel o e b r m = Ret (path, Some ec) /\ cast_ray F32A fuel e o b r m = Ret (path', Some oc) /\ path' ++ [oc] = rev (path ++ [ec]).
Proof. exact f32_back. Qed.
Print Assumptions C90_f32.

Example C90_f32_example : ray_short f1 sm_o sm_e sm_b /\ end_clear (/ 16)%R f1 sm_o sm_e sm_b /\ end_clear (/ 16)%R f1 sm_e sm_o sm_b /\
  no_corner_near (/ 16)%R (map real sm_b) (real f1) (map real sm_o) (map real sm_e) /\
  cast_ray F32A 20 sm_o sm_e sm_b f1 f0 = Ret ([[0; 0; 0]; [1; 0; 0]; [1; 0; 1]; [2; 0; 1]; [2; 1; 1]; [3; 1; 1]], Some [4; 1; 1]).
Proof. exact sm_back. Qed.
