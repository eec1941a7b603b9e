(** What the properties talk about, stated without reference to the model's
    functions. *)
From Coq Require Import ZArith List Bool Reals Sorting.Permutation.
From Flocq Require Import Core BinarySingleNaN.
From Verif Require Import Base F32 Arith Geom.
Open Scope Z_scope.

(** ** Ranges in which f32 rounding is analysed *)

(** Resolutions between 2^-100 and 2^100. *)
Definition res_ok (r : f32) : Prop :=
  finite r /\ (bpow radix2 (-100) <= real r <= bpow radix2 100)%R.

(** A finite coordinate at most [n] cells of size [r] away from zero. *)
Definition within_cells (n : Z) (r x : f32) : Prop :=
  finite x /\ (Rabs (real x) <= IZR n * real r)%R.

(** ** Probabilities *)
Definition odds (p : R) : R := (p / (1 - p))%R.
(** Posterior of two independent observations of an event with even prior odds. *)
Definition bayes (p q : R) : R := (p * q / (p * q + (1 - p) * (1 - q)))%R.

(** What is assumed of a libm logarithm where stated. *)
Record ln_special (ln : f32 -> f32) : Prop := {
  ln_zero : forall x, finite x -> real x = 0%R -> ln x = fninf;
  ln_one : feqb (ln f1) f0 = true;
  ln_infinity : ln finf = finf;
  ln_nan : forall x, is_nan x = true -> is_nan (ln x) = true;
  ln_negative : forall x, fltb x f0 = true -> is_nan (ln x) = true
}.
(** A logarithm that respects the order on nonnegative arguments. *)
Definition ln_monotone (ln : f32 -> f32) : Prop :=
  forall x y, fleb f0 x = true -> fleb x y = true -> fleb (ln x) (ln y) = true.

(** ** Boxes.  [fle] is Rust's [<=] on f32, false when a side is NaN. *)
Definition fle (x y : f32) : Prop := fleb x y = true.
Definition no_nan (p : point) : Prop := Forall (fun x => is_nan x = false) p.
(** A box with [d] axes whose corners are in order (hence free of NaN). *)
Definition ordered (d : nat) (b : bounds) : Prop :=
  length (bmin b) = d /\ length (bmax b) = d /\ Forall2 fle (bmin b) (bmax b).
(** The point [p] lies in the closed box [b]. *)
Definition inside (b : bounds) (p : point) : Prop :=
  Forall2 fle (bmin b) p /\ Forall2 fle p (bmax b).
(** The box [a] lies in the box [b]. *)
Definition sub_box (a b : bounds) : Prop :=
  Forall2 fle (bmin b) (bmin a) /\ Forall2 fle (bmax a) (bmax b).
(** The box whose corners are both at the coordinate origin (up to the sign of zero). *)
Definition is_zero_box (b : bounds) : Prop :=
  Forall (fun x => feqb x f0 = true) (bmin b) /\ Forall (fun x => feqb x f0 = true) (bmax b).

(** Along axis [i] the boxes are disjoint, or overlap by no more than what the
    approx crate's [relative_eq] regards as nothing. *)
Definition thin_overlap (a b : bounds) (i : nat) : Prop :=
  let hi := fmin (nth i (bmax a) f0) (nth i (bmax b) f0) in
  let lo := fmax (nth i (bmin a) f0) (nth i (bmin b) f0) in
  fltb hi lo = true \/ relative_eq hi lo = true.
(** [lo] is below [hi] by clearly more than float precision. *)
Definition clearly_below (lo hi : f32) : Prop :=
  finite lo /\ finite hi /\
  (real hi - real lo > bpow radix2 (-22) * Rmax 1 (Rmax (Rabs (real lo)) (Rabs (real hi))))%R.

(** Equal up to [t], relative to the larger of the two or absolutely below one. *)
Definition within_rel (t : R) (x y : f32) : Prop :=
  (Rabs (real x - real y) <= t * Rmax 1 (Rmax (Rabs (real x)) (Rabs (real y))))%R.

(** ** Boxes of cells *)
(** [x] is the largest multiple of [t] not above [c] / smallest not below. *)
Definition tile_below (t c x : Z) : Prop := (t | x) /\ x <= c < x + t.
Definition tile_above (t c x : Z) : Prop := (t | x) /\ x - t < c <= x.
Definition cells_in_isize (c : cell) : Prop := Forall (fun x => isize_min <= x <= isize_max) c.

(** ** Point clouds *)
(** Every coordinate of [p] that is a number lies between the corners of [b]. *)
Definition covers (b : bounds) (p : point) : Prop :=
  Forall2 (fun lo v => is_nan v = true \/ fle lo v) (bmin b) p /\
  Forall2 (fun v hi => is_nan v = true \/ fle v hi) p (bmax b).
(** A matrix as nalgebra stores it: as many entries as rows times columns. *)
Definition matrix_ok (m : matrix) : Prop := length (mdata m) = (nrows m * ncols m)%nat.

(** Vectors of space. *)
Definition dot3 (a b : R * R * R) : R :=
  let '(a1, a2, a3) := a in let '(b1, b2, b3) := b in (a1 * b1 + a2 * b2 + a3 * b3)%R.
(** The matrix with rows a, b, c has orthonormal columns. *)
Definition rigid (a b c : R * R * R) : Prop :=
  let '(a1, a2, a3) := a in let '(b1, b2, b3) := b in let '(c1, c2, c3) := c in
  let x := (a1, b1, c1) in let y := (a2, b2, c2) in let z := (a3, b3, c3) in
  dot3 x x = 1%R /\ dot3 y y = 1%R /\ dot3 z z = 1%R /\
  dot3 x y = 0%R /\ dot3 x z = 0%R /\ dot3 y z = 0%R.
Definition dist2 (a b : R * R * R) : R :=
  let '(a1, a2, a3) := a in let '(b1, b2, b3) := b in
  ((a1 - b1) * (a1 - b1) + (a2 - b2) * (a2 - b2) + (a3 - b3) * (a3 - b3))%R.
(** Points and homogeneous matrices (rotation rows a, b, c and translation t) as
    the exact-arithmetic model represents them. *)
Definition vec3 (p : R * R * R) : list xreal := let '(x, y, z) := p in [Fin x; Fin y; Fin z].
Definition homogeneous (a b c t : R * R * R) : list (list xreal) :=
  let '(t1, t2, t3) := t in
  [vec3 a ++ [Fin t1]; vec3 b ++ [Fin t2]; vec3 c ++ [Fin t3]; vec3 (0, 0, 0)%R ++ [Fin 1%R]].
Definition identity4 : list (list f32) :=
  [[f1; f0; f0; f0]; [f0; f1; f0; f0]; [f0; f0; f1; f0]; [f0; f0; f0; f1]].

(** A number of moderate size. *)
Definition moderate (x : f32) : Prop := finite x /\ (Rabs (real x) <= bpow radix2 40)%R.
(** The exact value of a matrix row (coefficients, then translation) at a point, and the
    sum of the absolute values of its terms. *)
Definition affine (row : list f32) (p : point) : R :=
  fold_right Rplus 0%R (map2 Rmult (map real row) (map real p ++ [1%R])).
Definition affine_size (row : list f32) (p : point) : R :=
  fold_right Rplus 0%R (map2 (fun m x => Rabs (m * x)) (map real row) (map real p ++ [1%R])).
(** [v] is the exact value up to five roundings. *)
Definition near_affine (row : list f32) (p : point) (v : f32) : Prop :=
  finite v /\
  (Rabs (real v - affine row p) <= 5 * bpow radix2 (-24) * affine_size row p + bpow radix2 (-147))%R.
(** The first three entries as reals. *)
Definition triple (p : list f32) : R * R * R := (real (nth 0 p f0), real (nth 1 p f0), real (nth 2 p f0)).
(** The matrix with rows a, b, c has columns orthonormal up to [d]. *)
Definition near_rigid (d : R) (a b c : R * R * R) : Prop :=
  let '(a1, a2, a3) := a in let '(b1, b2, b3) := b in let '(c1, c2, c3) := c in
  let x := (a1, b1, c1) in let y := (a2, b2, c2) in let z := (a3, b3, c3) in
  (Rabs (dot3 x x - 1) <= d /\ Rabs (dot3 y y - 1) <= d /\ Rabs (dot3 z z - 1) <= d /\
   Rabs (dot3 x y) <= d /\ Rabs (dot3 x z) <= d /\ Rabs (dot3 y z) <= d)%R.

(** ** Paths of cells *)
(** [c'] is [c] moved by one unit along one axis, in direction [sg] on that axis. *)
Definition one_step (sg : list Z) (c c' : cell) : Prop :=
  exists i, (i < length c)%nat /\ (nth i sg 0 = 1 \/ nth i sg 0 = -1) /\
    c' = upd c i (nth i c 0 + nth i sg 0).
(** Every cell of the list is one step after the one before it. *)
Fixpoint connected (sg : list Z) (l : list cell) : Prop :=
  match l with
  | c :: ((c' :: _) as rest) => one_step sg c c' /\ connected sg rest
  | _ => True
  end.
Definition manhattan (a b : cell) : Z := fold_right Z.add 0 (map2 (fun x y => Z.abs (x - y)) a b).
(** [x] lies in the box spanned by [a] and [b]. *)
Definition between (a b x : cell) : Prop :=
  length x = length a /\
  forall i, (i < length a)%nat ->
    Z.min (nth i a 0) (nth i b 0) <= nth i x 0 <= Z.max (nth i a 0) (nth i b 0).

(** Euclidean length as nalgebra computes it in f32, in two and three dimensions. *)
Definition square_length (v : point) : f32 :=
  match v with
  | [x; y] => fadd f0 (fadd (fmul x x) (fmul y y))
  | [x; y; z] => fadd f0 (fadd (fadd (fmul x x) (fmul y y)) (fmul z z))
  | _ => f0
  end.
(** Unit vector from [o] to [e]. *)
Definition direction (o e : point) : point :=
  let ray := map2 fsub e o in map (fun x => fdiv x (fsqrt (square_length ray))) ray.
(** 1 above zero, 0 at zero, -1 otherwise (also for NaN). *)
Definition sign_of (x : f32) : Z := if fltb f0 x then 1 else if feqb x f0 then 0 else -1.
Definition ray_signs (o e : point) : list Z := map sign_of (direction o e).
(** The centre of cell [c] is farther than [max_len] from [o], as f32 sees it. *)
Definition beyond (o bmin : point) (r max_len : f32) (c : cell) : Prop :=
  fltb (fmul max_len max_len)
       (square_length (map2 fsub (map2 (fun k b => fadd (fmul (f32_of_Z k) r) b) c bmin) o)) = true.

(** ** Segments and cells in exact arithmetic *)
Section Segment.
Local Open Scope R_scope.
(** The cell whose centre is nearest, halves away from zero. *)
Definition nearest_cell (b : list R) (r : R) (p : list R) : cell :=
  map2 (fun x y => ZnearestA ((x - y) / r)) p b.
(** The point at parameter [t] of the segment from [o] to [e]. *)
Definition seg (o e : list R) (t : R) : list R := map2 (fun x y => x + t * (y - x)) o e.
Definition in_closed_cell (b : list R) (r : R) (c : cell) (p : list R) : Prop :=
  forall i, (i < length c)%nat -> Rabs (nth i p 0 - (nth i b 0 + IZR (nth i c 0%Z) * r)) <= r / 2.
Definition in_open_cell (b : list R) (r : R) (c : cell) (p : list R) : Prop :=
  forall i, (i < length c)%nat -> Rabs (nth i p 0 - (nth i b 0 + IZR (nth i c 0%Z) * r)) < r / 2.
(** On no axis does the segment end exactly on the border through which it would
    leave the cell it ends in. *)
Definition ends_inside (b : list R) (r : R) (o e : list R) : Prop :=
  let ec := nearest_cell b r e in
  forall i, (i < length e)%nat ->
    (nth i o 0 < nth i e 0 -> nth i e 0 <> nth i b 0 + (IZR (nth i ec 0%Z) + / 2) * r) /\
    (nth i e 0 < nth i o 0 -> nth i e 0 <> nth i b 0 + (IZR (nth i ec 0%Z) - / 2) * r).
(** Within [r / 2 + g * r] of the centre of cell [c] on every axis: the cell grown (or, for
    negative [g], shrunk) by [g] cells on every side. *)
Definition in_grown_cell (g : R) (b : list R) (r : R) (c : cell) (p : list R) : Prop :=
  forall i, (i < length c)%nat -> Rabs (nth i p 0 - (nth i b 0 + IZR (nth i c 0%Z) * r)) <= (/ 2 + g) * r.
(** Euclidean distance, and the centre of a cell. *)
Definition dist (p q : list R) : R := sqrt (fold_right Rplus 0 (map2 (fun x y => (x - y) * (x - y)) p q)).
Definition cell_centre (b : list R) (r : R) (c : cell) : list R := map2 (fun k y => y + IZR k * r) c b.
End Segment.

(** ** Rays in range *)
(** Resolution between 2^-30 and 2^30, coordinates at most 2^20 cells away from zero,
    and start and end on each axis equal or at least 2^-40 cells apart. *)
Definition ray_range (r : f32) (o e b : point) : Prop :=
  finite r /\ (bpow radix2 (-30) <= real r <= bpow radix2 30)%R /\
  Forall (within_cells (2 ^ 20) r) o /\ Forall (within_cells (2 ^ 20) r) e /\
  Forall (within_cells (2 ^ 20) r) b /\
  Forall2 (fun x y => real x = real y \/ (bpow radix2 (-40) * real r <= Rabs (real x - real y))%R) o e.
(** Moreover coordinates at most 2^15 cells away from zero and rays of at most 1023
    cells on every axis. *)
Definition ray_short (r : f32) (o e b : point) : Prop :=
  ray_range r o e b /\
  Forall (within_cells (2 ^ 15) r) o /\ Forall (within_cells (2 ^ 15) r) e /\ Forall (within_cells (2 ^ 15) r) b /\
  Forall2 (fun x y => (Rabs (real x - real y) <= 1023 * real r)%R) o e.
(** On every axis on which the ray moves, its end is at least [g] cells away from
    every border between cells of the grid with offset [b]. *)
Definition end_clear (g : R) (r : f32) (o e b : point) : Prop :=
  forall i k, (i < length e)%nat -> real (nth i o f0) <> real (nth i e f0) ->
    (g * real r <= Rabs (real (nth i e f0) - (real (nth i b f0) + (IZR k + / 2) * real r)))%R.
