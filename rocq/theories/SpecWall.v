(** A world in which some cells are solid. *)
From Coq Require Import ZArith List Reals.
From Verif Require Import Base F32 Arith Geom NoiseModel Spec SpecNoise SpecMeet SpecWorld.
Open Scope R_scope.

(** The scan was taken in a world with these walls: its beams pass no wall, and those that arrive end at one. *)
Definition sees (d : nat) (M r : R) (wall : cell -> Prop) (s : exact_scan) : Prop :=
  forall q, In q (snd s) -> (forall w, beam_passes M (world d) r (fst s) q w -> ~ wall w) /\
    (beam_arrives M (world d) r (fst s) q -> wall (nearest_cell (world d) r q)).

(** The value of a cell after [n] hits ([h = true]) or misses ([h = false]). *)
Fixpoint after (m : lidar) (h : bool) (n : nat) : f32 :=
  match n with O => f0 | S k => evidence m (after m h k) h end.
