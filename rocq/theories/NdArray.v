(** Model of the parts of ndarray 0.13 the grid map uses: standard-layout owned
    arrays, indexing, slicing with [s![a..b]] and [assign].  ndarray itself is not
    in the repository; each definition cites the grid_map.rs line that uses it. *)
From Coq Require Import ZArith List Bool.
From Verif Require Import Base.
Open Scope Z_scope.

(** Owned array in row-major ("C") order. *)
Record ndarray (A : Type) : Type := mkNd { nd_shape : list Z; nd_data : list A }.
Arguments mkNd {A} _ _.
Arguments nd_shape {A} _.
Arguments nd_data {A} _.

(** 0, 1, ..., n-1 *)
Definition zrange (n : Z) : list Z := map Z.of_nat (seq 0 (Z.to_nat n)).

(** All index tuples of a shape, last axis fastest. *)
Fixpoint all_indices (shape : list Z) : list cell :=
  match shape with
  | [] => [[]]
  | n :: rest => flat_map (fun i => map (cons i) (all_indices rest)) (zrange n)
  end.

Definition zprod (l : list Z) : Z := fold_right Z.mul 1 l.

(** Row-major offset of an index tuple. *)
Fixpoint offset_of (shape idx : list Z) : Z :=
  match shape, idx with
  | _ :: rest, i :: idx' => i * zprod rest + offset_of rest idx'
  | _, _ => 0
  end.

Fixpoint in_shape (shape idx : list Z) : bool :=
  match shape, idx with
  | [], [] => true
  | n :: rest, i :: idx' => (0 <=? i) && (i <? n) && in_shape rest idx'
  | _, _ => false
  end.

(** [a[idx]] (grid_map.rs:149): panics when an index is out of range. *)
Definition nd_get {A} (a : ndarray A) (idx : list Z) : outcome A :=
  if in_shape (nd_shape a) idx then
    match nth_error (nd_data a) (Z.to_nat (offset_of (nd_shape a) idx)) with
    | Some x => Ret x
    | None => Panic
    end
  else Panic.

(** [a[idx] = x] (grid_map.rs:154) *)
Definition nd_set {A} (a : ndarray A) (idx : list Z) (x : A) : outcome (ndarray A) :=
  if in_shape (nd_shape a) idx then
    Ret (mkNd (nd_shape a) (upd (nd_data a) (Z.to_nat (offset_of (nd_shape a) idx)) x))
  else Panic.

(** [Array::from_shape_vec(shape, v).unwrap()] (grid_map.rs:109, 339): the product
    of the non-zero axis lengths must fit in isize and the number of elements must
    be exactly the product of the axis lengths. *)
Definition nd_from_shape_vec {A} (shape : list Z) (v : list A) : outcome (ndarray A) :=
  if (zprod (filter (fun n => negb (n =? 0)) shape) <=? isize_max)
     && (zprod shape =? Z.of_nat (length v))
  then Ret (mkNd shape v) else Panic.

(** One axis of a slice [start..end] (ndarray dimension::do_slice): negative ends
    count from the back, a reversed range is empty, and both ends must be within the
    axis.  Returns the first index and the length. *)
Definition slice_axis (len start stop : Z) : outcome (Z * Z) :=
  let abs_index i := if i <? 0 then len + i else i in
  let s := abs_index start in
  let e0 := abs_index stop in
  do _ <- oassert ((0 <=? s) && (0 <=? e0));      (* usize subtraction *)
  let e := if e0 <? s then s else e0 in
  do _ <- oassert ((s <=? len) && (e <=? len));
  Ret (s, e - s).

Fixpoint slice_axes (shape starts stops : list Z) : outcome (list (Z * Z)) :=
  match shape, starts, stops with
  | n :: shape', a :: starts', b :: stops' =>
      do r <- slice_axis n a b;
      do rs <- slice_axes shape' starts' stops';
      Ret (r :: rs)
  | _, _, _ => Ret []
  end.

(** Whether an index tuple lies in a slice given by (start, length) per axis. *)
Fixpoint in_slice (sl : list (Z * Z)) (idx : list Z) : bool :=
  match sl, idx with
  | [], [] => true
  | (s, n) :: sl', i :: idx' => (s <=? i) && (i <? s + n) && in_slice sl' idx'
  | _, _ => false
  end.

(** Where element [idx] of the destination slice comes from in the source array;
    an axis of length one in the source slice is broadcast. *)
Fixpoint source_index (tsl fsl : list (Z * Z)) (idx : list Z) : list Z :=
  match tsl, fsl, idx with
  | (ts, _) :: tsl', (fs, fn) :: fsl', i :: idx' =>
      (if fn =? 1 then fs else fs + (i - ts)) :: source_index tsl' fsl' idx'
  | _, _, _ => []
  end.

(** [to_slice.assign(&from_slice)] needs equal lengths, or length one to broadcast. *)
Fixpoint broadcastable (tsl fsl : list (Z * Z)) : bool :=
  match tsl, fsl with
  | [], [] => true
  | (_, tn) :: tsl', (_, fn) :: fsl' => ((tn =? fn) || (fn =? 1)) && broadcastable tsl' fsl'
  | _, _ => false
  end.

(** [to.slice_mut(tsl).assign(&from.slice(fsl))] (grid_map.rs:238-243, 285-293).
    Simplification: the result is rebuilt element by element in storage order
    instead of being written in place. *)
Definition nd_slice_assign {A} (to from : ndarray A) (tstart tstop fstart fstop : list Z)
  : outcome (ndarray A) :=
  do tsl <- slice_axes (nd_shape to) tstart tstop;
  do fsl <- slice_axes (nd_shape from) fstart fstop;
  do _ <- oassert (broadcastable tsl fsl);
  do data <- omap (fun idx =>
                     if in_slice tsl idx then nd_get from (source_index tsl fsl idx)
                     else nd_get to idx)
                  (all_indices (nd_shape to));
  Ret (mkNd (nd_shape to) data).
