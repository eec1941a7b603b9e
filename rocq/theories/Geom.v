(** Model of src/math.rs and src/geom/*.rs. *)
From Coq Require Import ZArith List Bool Reals.
From Flocq Require Import Core BinarySingleNaN.
From Verif Require Import Base F32 Arith.
Open Scope Z_scope.

(** ** Code that runs in any arithmetic *)
Section Generic.
Context (A : arith).
Notation T := (T A).

(** src/math.rs:1-9 f32_signum *)
Definition signum1 (value : T) : T :=
  if teqb A value (tzero A) then tzero A
  else if tltb A (tzero A) value then tone A
  else tmone A.

(** src/geom/vector.rs:7-13 signum *)
Definition signum (v : list T) : list T := map signum1 v.

(** src/math.rs:11-13 logodds_from_probability.  [ln] is the platform's
    logarithm (an argument: it is libm code, not part of the repository). *)
Definition logodds_from_probability (ln : T -> T) (probability : T) : T :=
  ln (tdiv A probability (tsub A (tone A) probability)).

(** src/math.rs:15-17 probability_from_logodds; [exp] is the platform's. *)
Definition probability_from_logodds (exp : T -> T) (logodds : T) : T :=
  tsub A (tone A) (tdiv A (tone A) (tadd A (tone A) (exp logodds))).

(** src/geom/converter.rs:7-9 *)
Definition point_coord_from_cell_coord (cell_coord : Z) (offset resolution : T) : T :=
  tadd A (tmul A (t_of_isize A cell_coord) resolution) offset.

(** src/geom/converter.rs:15-17 *)
Definition cell_coord_from_point_coord (point_coord offset resolution : T) : Z :=
  t_to_isize A (tround A (tdiv A (tsub A point_coord offset) resolution)).

(** src/geom/converter.rs:23-31 *)
Definition point_from_cell (c : cell) (offset : list T) (resolution : T) : list T :=
  map2 (fun coord offset_coord => point_coord_from_cell_coord coord offset_coord resolution)
       c offset.

(** src/geom/converter.rs:36-44 *)
Definition cell_from_point (p offset : list T) (resolution : T) : cell :=
  map2 (fun coord offset_coord => cell_coord_from_point_coord coord offset_coord resolution)
       p offset.

(** src/geom/converter.rs:50-69: zip of cell, offset and per-axis resolution. *)
Definition point_from_cell_n (c : cell) (offset resolution : list T) : list T :=
  map2 (fun co r => point_coord_from_cell_coord (fst co) (snd co) r)
       (combine c offset) resolution.

(** src/geom/converter.rs:75-95 *)
Definition cell_from_point_n (p offset resolution : list T) : cell :=
  map2 (fun po r => cell_coord_from_point_coord (fst po) (snd po) r)
       (combine p offset) resolution.

(** [a - b] of nalgebra points *)
Definition vsub (a b : list T) : list T := map2 (tsub A) a b.
(** [v / s] *)
Definition vdivs (v : list T) (s : T) : list T := map (fun x => tdiv A x s) v.

(** nalgebra 0.22 [norm_squared] of a 2- or 3-vector: zero plus the dot product,
    which is summed left to right ([a + b], [a + b + c]). *)
Definition dot_self (v : list T) : T :=
  match map (fun x => tmul A x x) v with
  | [] => tzero A
  | x :: t => fold_left (tadd A) t x
  end.
Definition norm_squared (v : list T) : T := tadd A (tzero A) (dot_self v).
(** nalgebra 0.22 [norm] *)
Definition norm (v : list T) : T := tsqrt A (norm_squared v).

End Generic.

(** ** f32 code *)
Definition point := list f32.

(** Point::origin() in dimension d *)
Definition origin (d : nat) : point := repeat f0 d.
(** Cell::origin() *)
Definition cell_origin (d : nat) : cell := repeat 0 d.

Definition f32_signum (x : f32) : f32 := signum1 F32A x.

Definition point_eqb (a b : point) : bool :=
  Nat.eqb (length a) (length b) && forallb (fun xy => feqb (fst xy) (snd xy)) (combine a b).

(** src/geom/bounds.rs:17-25; src/geom/cell_bounds.rs:20-28 *)
Record bounds : Type := mkBounds { bmin : point; bmax : point }.
Record cell_bounds : Type := mkCB { cmin : cell; cmax : cell }.

(** derived PartialEq: float [==] on every coordinate *)
Definition bounds_eqb (a b : bounds) : bool :=
  point_eqb (bmin a) (bmin b) && point_eqb (bmax a) (bmax b).
Definition cb_eqb (a b : cell_bounds) : bool :=
  cell_eqb (cmin a) (cmin b) && cell_eqb (cmax a) (cmax b).

(** src/geom/bounds.rs:34-39 Bounds::new *)
Definition bounds_new (mn mx : point) : outcome bounds :=
  do _ <- oassert (forallb (fun ab => fleb (fst ab) (snd ab)) (combine mn mx));
  Ret (mkBounds mn mx).

(** src/geom/bounds.rs:148-163 AbsDiffEq for Bounds.  The comparison of two points is
    nalgebra's: that of all pairs of coordinates. *)
Definition bounds_abs_diff_eq (epsilon : f32) (a b : bounds) : bool :=
  forallb (fun xy => abs_diff_eq epsilon (fst xy) (snd xy)) (combine (bmin a) (bmin b)) &&
  forallb (fun xy => abs_diff_eq epsilon (fst xy) (snd xy)) (combine (bmax a) (bmax b)).
(** src/geom/bounds.rs:165-186 RelativeEq for Bounds. *)
Definition bounds_relative_eq (epsilon max_relative : f32) (a b : bounds) : bool :=
  forallb (fun xy => relative_eq_with epsilon max_relative (fst xy) (snd xy)) (combine (bmin a) (bmin b)) &&
  forallb (fun xy => relative_eq_with epsilon max_relative (fst xy) (snd xy)) (combine (bmax a) (bmax b)).

(** src/geom/bounds.rs:41-43 Bounds::empty (Bounds::new cannot fail here: 0 <= 0). *)
Definition bounds_empty (d : nat) : bounds := mkBounds (origin d) (origin d).

(** src/geom/cell_bounds.rs:37-42 CellBounds::new *)
Definition cb_new (mn mx : cell) : outcome cell_bounds :=
  do _ <- oassert (forallb (fun ab => fst ab <=? snd ab) (combine mn mx));
  Ret (mkCB mn mx).

(** src/geom/cell_bounds.rs:44-46 *)
Definition cb_empty (d : nat) : cell_bounds := mkCB (cell_origin d) (cell_origin d).

(** src/geom/cell_bounds.rs:48-56 CellBounds::from_bounds *)
Definition cb_from_bounds (b : bounds) (resolution : f32) : cell_bounds :=
  let d := length (bmin b) in
  if bounds_eqb b (bounds_empty d) then cb_empty d
  else mkCB (cell_from_point F32A (bmin b) (origin d) resolution)
            (cell_from_point F32A (bmax b) (origin d) resolution).

(** src/geom/cell_bounds.rs:62-71, one coordinate of the new min.  [ts] is
    [tile_size as isize]; [%] is the truncated remainder and panics on zero. *)
Definition disc_min1 (ts coord : Z) : outcome Z :=
  do _ <- oassert (negb (ts =? 0));
  do r <- isz (Z.rem coord ts);
  do remainder <- isz (Z.abs r);
  if remainder =? 0 then Ret coord
  else if coord <? 0 then do x <- isz (ts - remainder); isz (coord - x)
  else isz (coord - remainder).

(** src/geom/cell_bounds.rs:72-81, one coordinate of the new max. *)
Definition disc_max1 (ts coord : Z) : outcome Z :=
  do _ <- oassert (negb (ts =? 0));
  do r <- isz (Z.rem coord ts);
  do remainder <- isz (Z.abs r);
  if remainder =? 0 then Ret coord
  else if coord <? 0 then isz (coord + remainder)
  else do x <- isz (ts - remainder); isz (coord + x).

(** src/geom/cell_bounds.rs:60-83 CellBounds::discretized; [tile_size] is a usize. *)
Definition cb_discretized (cb : cell_bounds) (tile_size : Z) : outcome cell_bounds :=
  let ts := isize_of_usize tile_size in
  do mn <- omap (disc_min1 ts) (cmin cb);
  do mx <- omap (disc_max1 ts) (cmax cb);
  Ret (mkCB mn mx).

(** src/geom/bounds.rs:66-71 Bounds::from_cell_bounds *)
Definition bounds_from_cell_bounds (cb : cell_bounds) (resolution : f32) : bounds :=
  let d := length (cmin cb) in
  mkBounds (point_from_cell F32A (cmin cb) (origin d) resolution)
           (point_from_cell F32A (cmax cb) (origin d) resolution).

(** src/geom/bounds.rs:74-87 Bounds::from_cell_bounds_n *)
Definition bounds_from_cell_bounds_n (cb : cell_bounds) (resolution : point) : bounds :=
  let d := length (cmin cb) in
  mkBounds (point_from_cell_n F32A (cmin cb) (origin d) resolution)
           (point_from_cell_n F32A (cmax cb) (origin d) resolution).

(** isize coordinatewise sum, overflow panics *)
Definition cell_add (a b : cell) : outcome cell :=
  omap (fun xy => isz (fst xy + snd xy)) (combine a b).
Definition cell_sub (a b : cell) : outcome cell :=
  omap (fun xy => isz (fst xy - snd xy)) (combine a b).

(** src/geom/bounds.rs:45-51 Bounds::from_size_cells *)
Definition bounds_from_size_cells (size_cells : cell) (resolution : f32) (offset : cell)
  : outcome bounds :=
  do mn <- cell_add (cell_origin (length offset)) offset;
  do mx <- cell_add size_cells offset;
  Ret (bounds_from_cell_bounds (mkCB mn mx) resolution).

(** src/geom/bounds.rs:54-64 Bounds::from_size_cells_n *)
Definition bounds_from_size_cells_n (size_cells : cell) (resolution : point) (offset : cell)
  : outcome bounds :=
  do mn <- cell_add (cell_origin (length offset)) offset;
  do mx <- cell_add size_cells offset;
  Ret (bounds_from_cell_bounds_n (mkCB mn mx) resolution).

(** src/geom/bounds.rs:91-97, one coordinate of the min corner *)
Definition fdisc_min1 (resolution v : f32) : f32 :=
  let c := fdiv v resolution in
  if relative_eq c (fround c) then v
  else fmul (ffloor c) resolution.

(** src/geom/bounds.rs:98-107, one coordinate of the max corner *)
Definition fdisc_max1 (resolution : f32) (expand : bool) (v : f32) : f32 :=
  let c := fdiv v resolution in
  if relative_eq c (fround c) then
    if expand then fadd v resolution else v
  else fmul (fceil c) resolution.

(** src/geom/bounds.rs:89-109 Bounds::discretized *)
Definition bounds_discretized (b : bounds) (resolution : f32) (expand : bool) : outcome bounds :=
  bounds_new (map (fdisc_min1 resolution) (bmin b))
             (map (fdisc_max1 resolution expand) (bmax b)).

(** src/geom/bounds.rs:114-130 Bounds::enclosing.  The two loops write each
    coordinate at most once, so they are written coordinatewise. *)
Definition bounds_enclosing (self other : bounds) : bounds :=
  if bounds_eqb self (bounds_empty (length (bmin self))) then other
  else
    mkBounds (map2 (fun v o => if fltb v o then v else o) (bmin self) (bmin other))
             (map2 (fun v o => if fltb o v then v else o) (bmax self) (bmax other)).

(** src/geom/bounds.rs:135-143, the loop of Bounds::overlapping from coordinate i
    on; [None] is the early return of the empty bounds. *)
Fixpoint overlap_loop (smin smax omin omax : point) : option (point * point) :=
  match smin, smax, omin, omax with
  | a :: smin', b :: smax', c :: omin', d :: omax' =>
      let min_max := fmin b d in
      let max_min := fmax a c in
      if fltb min_max max_min || relative_eq min_max max_min then None
      else
        match overlap_loop smin' smax' omin' omax' with
        | None => None
        | Some (mns, mxs) => Some (max_min :: mns, min_max :: mxs)
        end
  | _, _, _, _ => Some ([], [])
  end.

(** src/geom/bounds.rs:133-145 Bounds::overlapping *)
Definition bounds_overlapping (self other : bounds) : bounds :=
  match overlap_loop (bmin self) (bmax self) (bmin other) (bmax other) with
  | None => bounds_empty (length (bmin self))
  | Some (mn, mx) => mkBounds mn mx
  end.

(** ** Point clouds: src/geom/point_cloud.rs *)

(** na::MatrixMN<f32, NaD, Dynamic>: column-major storage. *)
Record matrix : Type := mkMatrix { nrows : nat; ncols : nat; mdata : list f32 }.

(** nalgebra 0.22 [from_iterator] for a dynamic number of columns: collects the
    iterator and asserts the number of elements. *)
Definition matrix_from_iterator (rows cols : nat) (it : list f32) : outcome matrix :=
  do _ <- oassert (Nat.eqb (length it) (rows * cols));
  Ret (mkMatrix rows cols it).

(** src/geom/point_cloud.rs:22-29 PointCloud::from_points (d is NaD) *)
Definition pc_from_points (d : nat) (points : list point) : outcome matrix :=
  matrix_from_iterator d (length points) (concat points).

(** column j *)
Definition mcol (m : matrix) (j : nat) : list f32 := firstn (nrows m) (skipn (j * nrows m) (mdata m)).

(** src/geom/point_cloud.rs:35-41 PointCloud::points_iter *)
Definition pc_points (m : matrix) : list point := map (mcol m) (seq 0 (ncols m)).

(** src/geom/point_cloud.rs:43-45 num_points *)
Definition pc_num_points (m : matrix) : nat := ncols m.

(** src/geom/point_cloud.rs:51-58: one point of the fold.  The inner loop visits
    each axis once, so it is written coordinatewise. *)
Definition bounds_add_point (b : bounds) (p : point) : bounds :=
  mkBounds (map2 (fun v m => if fltb v m then v else m) p (bmin b))
           (map2 (fun v m => if fltb m v then v else m) p (bmax b)).

(** src/geom/point_cloud.rs:48-61 PointCloud::bounds *)
Definition pc_bounds (m : matrix) : bounds :=
  fold_left bounds_add_point (pc_points m) (bounds_empty (nrows m)).

(** One row of nalgebra 0.22 [gemv] with alpha = 1, beta = 0 (used by [gemm] for a
    4-row static left factor): the first term is stored, then each further term is
    added to one times the accumulated value. *)
Section Transform.
Context (A : arith).
Definition gemv_row (row col : list (T A)) : T A :=
  match map2 (fun m c => tmul A (tmul A (tone A) m) c) row col with
  | [] => tzero A
  | x :: t => fold_left (fun acc y => tadd A y (tmul A (tone A) acc)) t x
  end.

(** src/geom/point_cloud.rs:66-74, what happens to one column: a row of ones is
    appended, the 4x4 matrix (a list of four rows) is applied, and the last row of
    the product is removed. *)
Definition transform_col (mat : list (list (T A))) (col : list (T A)) : list (T A) :=
  removelast (map (fun row => gemv_row row (col ++ [tone A])) mat).
End Transform.

(** src/geom/point_cloud.rs:66-74 PointCloud::transform *)
Definition pc_transform (mat : list (list f32)) (m : matrix) : matrix :=
  mkMatrix (nrows m) (ncols m) (concat (map (transform_col F32A mat) (pc_points m))).
