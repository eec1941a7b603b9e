(** A drive given in real numbers, and its recording in f32. *)
From Coq Require Import ZArith List Reals.
From Flocq Require Import Core BinarySingleNaN.
From Verif Require Import Base F32 Arith Geom NdArray GridMap RayCaster NoiseModel Spec SpecMap SpecNoise SpecBack SpecMeet SpecNear SpecWorld.
Open Scope R_scope.

(** The number of the form of an f32 nearest to [x] (of two, the even one), and an f32 of this value. *)
Definition nearest32 (x : R) : R := round radix2 (FLT_exp (-149) 24) ZnearestE x.
Definition rounds_to (x : R) (f : f32) : Prop := finite f /\ real f = nearest32 x.
(** Sensor and cloud as the exact scan stored in f32. *)
Definition stored (d : nat) (s : exact_scan) (f : point * matrix) : Prop :=
  matrix_ok (snd f) /\ nrows (snd f) = d /\ Forall2 rounds_to (fst s) (fst f) /\ Forall2 (Forall2 rounds_to) (snd s) (pc_points (snd f)).

(** On axis [i] the coordinate [x] is more than a cell below zero or below a point, or in the first quarter above a
    multiple of [r] (with a margin at the upper end, and not rounded to less than the multiple). *)
Definition has_room (i : nat) (r : R) (s : exact_scan) (x : R) : Prop :=
  x + 65 / 64 * r <= 0 \/ (exists q, In q (snd s) /\ x + 65 / 64 * r <= nth i q 0) \/
  exists k : Z, x <= (IZR k + 15 / 64) * r /\ IZR k * r <= nearest32 x.

(** The exact scan is in range of the map: up to 16000 cells from zero and 1022 cells from the sensor, the sensor
    between zero and the points, and the beams clear of corners, borders and the limit [M]. *)
Definition in_reach (d : nat) (M r : R) (s : exact_scan) : Prop :=
  length (fst s) = d /\ Forall (fun x => Rabs x <= 16000 * r) (fst s) /\
  (forall i, (i < d)%nat -> let x := nth i (fst s) 0 in
     (0 <= x \/ exists q, In q (snd s) /\ nth i q 0 <= x) /\ (x <= 0 \/ exists q, In q (snd s) /\ x <= nth i q 0) /\ has_room i r s x) /\
  forall q, In q (snd s) -> length q = d /\ Forall (fun x => Rabs x <= 16000 * r) q /\ clear_segment M (world d) r (fst s) q /\ off_borders (9 / 64) (world d) r q /\
    forall i, (i < d)%nat -> let D := nth i (fst s) 0 - nth i q 0 in (D = 0 \/ r / 64 <= Rabs D) /\ Rabs D <= 1022 * r /\ has_room i r s (nth i q 0).

(** The frames integrated one after the other, each with the orders in which its two sets happen to be iterated. *)
Definition orders : Type := (iteration_order * iteration_order)%type.
Fixpoint map_frames (fuel : nat) (o : occ_map) (fs : list ((point * matrix) * orders)) : outcome occ_map :=
  match fs with
  | [] => Ret o
  | (f, ord) :: fs' => do o' <- om_integrate fuel (fst ord) (snd ord) o (fst f) (snd f) ; map_frames fuel o' fs'
  end.
Definition map_drive (d : nat) (m : lidar) (r : f32) (t : Z) (fuel : nat) (fs : list ((point * matrix) * orders)) : outcome occ_map :=
  do o <- om_new d m r t ; map_frames fuel o fs.

(** The drive [S] in range, and the frames [fs] that store it. *)
Definition driven (d : nat) (m r : f32) (S : list exact_scan) (fs : list ((point * matrix) * orders)) : Prop :=
  Forall (in_reach d (real m) (real r)) S /\ Forall2 (fun s f => stored d s (fst f) /\ is_order (fst (snd f)) /\ is_order (snd (snd f))) S fs.
