(** When a ray crosses the borders of cells, in the arithmetic of the program. *)
From Coq Require Import ZArith List Bool.
From Flocq Require Import Core BinarySingleNaN.
From Verif Require Import Base F32 Geom Spec.
Open Scope Z_scope.

(** Along one axis: the way from [o] to the far border of cell [c] of the grid with offset [b], in units
    of the direction [d] of the ray; no border is ever reached along an axis the ray does not move on. *)
Definition first_crossing (b r o d : f32) (c : Z) : f32 :=
  if sign_of d =? 0 then finf
  else fdiv (fsub (fadd (fadd (fmul (f32_of_Z c) r) b) (fmul (fmul (f32_of_Z (sign_of d)) r) fhalf)) o) d.
(** The way between two borders. *)
Definition spacing (r d : f32) : f32 := if sign_of d =? 0 then finf else fdiv r (fabs d).
(** The border after [k] others: the spacing is added [k] times, each time with rounding. *)
Fixpoint crossing (t s : f32) (k : nat) : f32 := match k with O => t | S k' => fadd (crossing t s k') s end.

(** The border of axis [i] at [x] is crossed before that of axis [j] at [y]; of two at the same place
    that of the later axis is crossed first. *)
Definition before (i : nat) (x : f32) (j : nat) (y : f32) : Prop := fltb x y = true \/ (fle x y /\ (j < i)%nat).

(** The number of borders along axis [i] from cell [c] to cell [x]. *)
Definition borders (c x : cell) (i : nat) : nat := Z.to_nat (Z.abs (nth i x 0 - nth i c 0)).

(** Cell [x] is on the way of the ray with start [c], signs [sg], first crossings [t] and spacings [s]:
    it lies ahead, and on any two axes the last border before it is crossed before the first one behind it. *)
Definition on_the_way (d : nat) (sg : list Z) (t s : list f32) (c x : cell) : Prop :=
  length x = d /\
  (forall i, (i < d)%nat -> nth i x 0 - nth i c 0 = nth i sg 0 * Z.of_nat (borders c x i)) /\
  (forall i j, (i < d)%nat -> (j < d)%nat -> i <> j -> (0 < borders c x i)%nat ->
     before i (crossing (nth i t finf) (nth i s finf) (borders c x i - 1)) j (crossing (nth j t finf) (nth j s finf) (borders c x j))).

(** The numbers of a ray from [o] to [e]. *)
Definition first_crossings (o e b : point) (r : f32) (c : cell) : list f32 :=
  map2 (fun bo dc => first_crossing (fst bo) r (snd bo) (fst dc) (snd dc)) (map2 pair b o) (map2 pair (direction o e) c).
Definition spacings (o e : point) (r : f32) : list f32 := map (spacing r) (direction o e).
Definition passes (d : nat) (o e b : point) (r : f32) (c x : cell) : Prop :=
  on_the_way d (ray_signs o e) (first_crossings o e b r c) (spacings o e r) c x.
(** Every first crossing is a number above minus infinity and no spacing is negative. *)
Definition well_timed (o e b : point) (r : f32) (c : cell) : Prop :=
  Forall2 (fun t s => fltb fninf t = true /\ fle f0 s) (first_crossings o e b r c) (spacings o e r).
(** The ray leaves its first cell: some first crossing is not infinite. *)
Definition moves (o e b : point) (r : f32) (c : cell) : Prop := Exists (fun t => fltb t finf = true) (first_crossings o e b r c).

(** A ray that leaves its cell at all does so well timed. *)
Definition timely (o e b : point) (r : f32) (oc ec : cell) : Prop := oc <> ec -> well_timed o e b r oc /\ moves o e b r oc.
(** A cell that ends a ray with start cell [oc], end cell [ec] and limit [m]. *)
Definition ends_ray (o b : point) (r m : f32) (oc ec z : cell) : Prop :=
  z = ec \/ (z <> oc /\ z <> ec /\ fltb f0 m = true /\ beyond o b r m z).
(** The cell at which such a ray stops: the first on its way that ends it. *)
Definition stops_at (d : nat) (o e b : point) (r m : f32) (oc ec z : cell) : Prop :=
  passes d o e b r oc z /\ cells_in_isize z /\ ends_ray o b r m oc ec z /\
  forall x, passes d o e b r oc x -> manhattan oc x < manhattan oc z -> ~ ends_ray o b r m oc ec x.
(** The cells it crosses before it stops. *)
Definition crosses (d : nat) (o e b : point) (r m : f32) (oc ec x : cell) : Prop :=
  exists z, stops_at d o e b r m oc ec z /\ passes d o e b r oc x /\ manhattan oc x < manhattan oc z.

(** Mirror images: the axes marked in [fl] have their sign changed. *)
Definition mirrored (fl : list bool) (p : point) : point := map2 (fun (f : bool) x => if f then fneg x else x) fl p.
Definition mirrored_cell (fl : list bool) (c : cell) : cell := map2 (fun (f : bool) x => if f then - x else x) fl c.
(** The image of what casting a ray gives. *)
Definition mirrored_ray (fl : list bool) (r : list cell * option cell) : list cell * option cell :=
  (map (mirrored_cell fl) (fst r), option_map (mirrored_cell fl) (snd r)).
