(** Base definitions: results of computations that may panic or not return,
    machine integers, and a few list helpers. *)
From Coq Require Export ZArith List Bool Lia.
Export ListNotations.
Open Scope Z_scope.

(** What running a piece of Rust code can do.  [Ret a]: it returned [a].
    [Panic]: it panicked (failed assert, index out of range, arithmetic overflow
    with overflow checks, [unwrap] of an error).  [NoFuel]: it had not returned
    after the number of loop iterations given as fuel. *)
Inductive outcome (A : Type) : Type :=
| Ret (a : A)
| Panic
| NoFuel.
Arguments Ret {A} a.
Arguments Panic {A}.
Arguments NoFuel {A}.

Definition obind {A B} (m : outcome A) (k : A -> outcome B) : outcome B :=
  match m with
  | Ret a => k a
  | Panic => Panic
  | NoFuel => NoFuel
  end.

Notation "'do' x <- m ; k" := (obind m (fun x => k))
  (at level 200, x name, m at level 100, k at level 200).
Notation "'do' ' p <- m ; k" := (obind m (fun x => match x with p => k end))
  (at level 200, p strict pattern, m at level 100, k at level 200).

(** [assert!(b)] *)
Definition oassert (b : bool) : outcome unit := if b then Ret tt else Panic.

(** Running [f] over a list in order, stopping at the first panic. *)
Fixpoint omap {A B} (f : A -> outcome B) (l : list A) : outcome (list B) :=
  match l with
  | [] => Ret []
  | x :: t => do y <- f x; do ys <- omap f t; Ret (y :: ys)
  end.

Fixpoint ofold {A S} (f : S -> A -> outcome S) (s : S) (l : list A) : outcome S :=
  match l with
  | [] => Ret s
  | x :: t => do s' <- f s x; ofold f s' t
  end.

(** ** Machine integers (64-bit target) *)
Definition isize_min : Z := - 2 ^ 63.
Definition isize_max : Z := 2 ^ 63 - 1.
Definition usize_mod : Z := 2 ^ 64.

Definition in_isize (z : Z) : bool := (isize_min <=? z) && (z <=? isize_max).

(** The result of an [isize] operation: panics on overflow (dev profile, overflow
    checks on).  With overflow checks off the value would wrap; the theorems show
    that no overflow happens in the ranges they cover. *)
Definition isz (z : Z) : outcome Z := if in_isize z then Ret z else Panic.

(** [x as usize] for an [isize] [x], also the transmute in cell.rs:41. *)
Definition usize_of_isize (z : Z) : Z := z mod usize_mod.
(** [x as isize] for a [usize] [x]. *)
Definition isize_of_usize (z : Z) : Z := if z <=? isize_max then z else z - usize_mod.

(** ** Lists *)
Fixpoint map2 {A B C} (f : A -> B -> C) (l : list A) (m : list B) : list C :=
  match l, m with
  | a :: l', b :: m' => f a b :: map2 f l' m'
  | _, _ => []
  end.

(** [l[i] = x] *)
Fixpoint upd {A} (l : list A) (i : nat) (x : A) : list A :=
  match l, i with
  | [], _ => []
  | _ :: t, O => x :: t
  | h :: t, S j => h :: upd t j x
  end.

(** Integer cells: na::Point<isize, D>.  src/geom/cell.rs:1-5.
    Simplification: a cell is a list of coordinates; the dimension is its length. *)
Definition cell := list Z.

Fixpoint cell_eqb (a b : cell) : bool :=
  match a, b with
  | [], [] => true
  | x :: a', y :: b' => (x =? y) && cell_eqb a' b'
  | _, _ => false
  end.

Definition cell_eq_dec : forall a b : cell, {a = b} + {a <> b} := list_eq_dec Z.eq_dec.
