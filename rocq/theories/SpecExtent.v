(** How large a map gets. *)
From Coq Require Import ZArith List Bool Reals.
From Flocq Require Import Core BinarySingleNaN.
From Verif Require Import Base F32 Arith Geom NdArray GridMap Spec SpecMap.
Open Scope Z_scope.

(** [grown d r t bs g]: [g] was empty at first, has been asked to cover the boxes [bs], in this
    order, and has otherwise only been written to. *)
Inductive grown {A} (d : nat) (r : f32) (t : Z) : list bounds -> grid_map A -> Prop :=
| grown_new : forall v g, gm_new r (bounds_empty d) t v = Ret g -> grown d r t [] g
| grown_expand : forall bs g b v g', grown d r t bs g -> request_ok d r b ->
    gm_expand_bounds g b v = Ret g' -> grown d r t (bs ++ [b]) g'
| grown_set : forall bs g c v g', grown d r t bs g -> gm_set g c v = Ret g' -> grown d r t bs g'
| grown_track : forall bs g x, grown d r t bs g -> grown d r t bs (gm_set_track_changes g x)
| grown_clear : forall bs g, grown d r t bs g -> grown d r t bs (gm_clear_changed_cells g)
| grown_add : forall bs g l, grown d r t bs g -> grown d r t bs (gm_add_changed_cells g l).

(** The cells [k] from the one at the lower corner of [b] up to the first one beyond its upper
    corner. *)
Definition box_cells (r : f32) (b : bounds) (k : cell_bounds) : Prop :=
  Forall2 (fun j x => real x / real r - 6 / 5 < IZR j <= real x / real r + / 5)%R (cmin k) (bmin b) /\
  Forall2 (fun j x => real x / real r < IZR j <= real x / real r + 6 / 5)%R (cmax k) (bmax b).

(** [h] is the smallest box that contains all boxes [bs]: each of its coordinates is one of theirs
    and none of theirs is beyond it. *)
Definition hull (d : nat) (bs : list bounds) (h : bounds) : Prop :=
  length (bmin h) = d /\ length (bmax h) = d /\ forall i, (i < d)%nat ->
    (exists b, In b bs /\ nth i (bmin b) f0 = nth i (bmin h) f0) /\ (exists b, In b bs /\ nth i (bmax b) f0 = nth i (bmax h) f0) /\
    Forall (fun b => real (nth i (bmin h) f0) <= real (nth i (bmin b) f0) /\ real (nth i (bmax b) f0) <= real (nth i (bmax h) f0))%R bs.

(** The boxes [bs] lie between [x] and [X] on axis [i]. *)
Definition between (i : nat) (x X : R) (bs : list bounds) : Prop :=
  Forall (fun b => x <= real (nth i (bmin b) f0) /\ real (nth i (bmax b) f0) <= X)%R bs.
