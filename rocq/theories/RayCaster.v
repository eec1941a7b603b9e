(** Model of src/ray_caster.rs. *)
From Coq Require Import ZArith List Bool.
From Flocq Require Import Core BinarySingleNaN.
From Verif Require Import Base F32 Arith Geom.
Open Scope Z_scope.

Section Cast.
Context (A : arith).
Notation T := (T A).

(** src/ray_caster.rs:100-120: index of the axis whose border comes next. *)
Definition select_dim (t_max : list T) : nat :=
  let t i := nth i t_max (tinf A) in
  if Nat.eqb (length t_max) 3 then
    if tltb A (t 0%nat) (t 1%nat) then
      if tltb A (t 0%nat) (t 2%nat) then 0%nat else 2%nat
    else if tltb A (t 1%nat) (t 2%nat) then 1%nat else 2%nat
  else
    if tltb A (t 0%nat) (t 1%nat) then 0%nat else 1%nat.

(** What the loop reads but does not write. *)
Record ray_env : Type := mkEnv {
  re_origin : list T;
  re_bmin : list T;              (* bounds.min *)
  re_resolution : T;
  re_max_len : T;
  re_end_cell : cell;
  re_step : list T;
  re_t_delta : list T
}.

(** src/ray_caster.rs:126-134: true when the ray is cut at this cell. *)
Definition too_far (e : ray_env) (current_cell : cell) : bool :=
  if tltb A (tzero A) (re_max_len e) then
    let current_ray :=
      vsub A (point_from_cell A current_cell (re_bmin e) (re_resolution e)) (re_origin e) in
    tltb A (tmul A (re_max_len e) (re_max_len e)) (norm_squared A current_ray)
  else false.

(** src/ray_caster.rs:97-136: the loop; one unit of fuel per iteration. *)
Fixpoint ray_loop (fuel : nat) (e : ray_env) (current_cell : cell) (t_max : list T)
                  (ray_cells : list cell) : outcome (list cell * option cell) :=
  match fuel with
  | O => NoFuel
  | S fuel' =>
      let dim := select_dim t_max in
      do x <- isz (nth dim current_cell 0 + t_to_isize A (nth dim (re_step e) (tzero A)));
      let current_cell' := upd current_cell dim x in
      let t_max' := upd t_max dim (tadd A (nth dim t_max (tinf A))
                                          (nth dim (re_t_delta e) (tinf A))) in
      if cell_eqb current_cell' (re_end_cell e) then Ret (ray_cells, Some (re_end_cell e))
      else if too_far e current_cell' then Ret (ray_cells, None)
      else ray_loop fuel' e current_cell' t_max' (ray_cells ++ [current_cell'])
  end.

(** src/ray_caster.rs:83-96: t_max and t_delta of one axis. *)
Definition axis_t_max (step c_bmin origin direction resolution : T) (current : Z) : T :=
  if teqb A step (tzero A) then tinf A
  else
    let cell_border :=
      tadd A (point_coord_from_cell_coord A current c_bmin resolution)
             (tmul A (tmul A step resolution) (thalf A)) in
    tdiv A (tsub A cell_border origin) direction.
Definition axis_t_delta (step direction resolution : T) : T :=
  if teqb A step (tzero A) then tinf A
  else tdiv A resolution (tabs A direction).

Fixpoint init_t_max (step bmn origin direction : list T) (resolution : T) (current : cell)
  : list T :=
  match step, bmn, origin, direction, current with
  | s :: step', b :: bmn', o :: origin', d :: direction', c :: current' =>
      axis_t_max s b o d resolution c :: init_t_max step' bmn' origin' direction' resolution current'
  | _, _, _, _, _ => []
  end.
Definition init_t_delta (step direction : list T) (resolution : T) : list T :=
  map2 (fun s d => axis_t_delta s d resolution) step direction.

(** src/ray_caster.rs:56-138 cast_ray.  Only [bounds.min] is used, so only it is
    an argument. *)
Definition cast_ray (fuel : nat) (origin end_ : list T) (bounds_min : list T)
                    (resolution max_len : T) : outcome (list cell * option cell) :=
  do _ <- oassert (Nat.eqb (length origin) 2 || Nat.eqb (length origin) 3);
  let origin_cell := cell_from_point A origin bounds_min resolution in
  let end_cell := cell_from_point A end_ bounds_min resolution in
  if cell_eqb origin_cell end_cell then Ret ([], Some end_cell)
  else
    let ray := vsub A end_ origin in
    let ray_length := norm A ray in
    let direction := vdivs A ray ray_length in
    let step := signum A direction in
    let t_max := init_t_max step bounds_min origin direction resolution origin_cell in
    let t_delta := init_t_delta step direction resolution in
    ray_loop fuel (mkEnv origin bounds_min resolution max_len end_cell step t_delta)
             origin_cell t_max [origin_cell].

End Cast.

(** HashSet<Cell>: a duplicate-free list; its order is only the order in which the
    elements were first inserted and carries no meaning (see NoiseModel.v for
    iteration). *)
Definition cset := list cell.
Definition set_mem (c : cell) (s : cset) : bool := existsb (cell_eqb c) s.
Definition set_insert (s : cset) (c : cell) : cset := if set_mem c s then s else s ++ [c].
Definition set_remove (s : cset) (c : cell) : cset := filter (fun x => negb (cell_eqb c x)) s.

(** src/ray_caster.rs:7-45 cast_rays.  The closure of [map] and the closure of
    [fold] alternate, as they do for a lazy iterator. *)
Definition cast_rays (fuel : nat) (origin : point) (cloud : matrix) (b : bounds)
                     (resolution max_len : f32) : outcome (cset * cset) :=
  do fo <- ofold (fun (acc : cset * cset) p =>
              do r <- cast_ray F32A fuel origin p (bmin b) resolution max_len;
              let occ := match snd r with
                         | Some end_cell => set_insert (snd acc) end_cell
                         | None => snd acc
                         end in
              Ret (fold_left set_insert (fst r) (fst acc), occ))
           ([], []) (pc_points cloud);
  Ret (fold_left set_remove (snd fo) (fst fo), snd fo).
