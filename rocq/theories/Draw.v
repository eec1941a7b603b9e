(** Model of what the visualizer draws in a frame: draw_frame_marker and the drawing in step,
    viz/src/bin/draw_occupancy_grid.rs:9-26 and 98-105, with the parts of nalgebra 0.22 they use.
    What kiss3d does with the points and lines is not modelled. *)
From Coq Require Import ZArith List Bool.
From Flocq Require Import Core BinarySingleNaN.
From Verif Require Import Base F32 Arith Geom Kitti Viz Pose.
Open Scope Z_scope.

Section Marker.
Context (A : arith).

(** nalgebra::Vector3 and Point3 *)
Definition vec : Type := (T A * T A * T A)%type.

(** nalgebra 0.22 Vector3::cross *)
Definition cross (u v : vec) : vec :=
  let '(ax, ay, az) := u in let '(bx, by_, bz) := v in
  (tsub A (tmul A ay bz) (tmul A az by_), tsub A (tmul A az bx) (tmul A ax bz), tsub A (tmul A ax by_) (tmul A ay bx)).
Definition scaled (v : vec) (k : T A) : vec := let '(x, y, z) := v in (tmul A x k, tmul A y k, tmul A z k).
Definition added (u v : vec) : vec :=
  let '(ax, ay, az) := u in let '(bx, by_, bz) := v in (tadd A ax bx, tadd A ay by_, tadd A az bz).

(** nalgebra 0.22 UnitQuaternion * Vector3, which is Isometry3::transform_vector
    (viz/src/bin/draw_occupancy_grid.rs:13, 18, 23) *)
Definition rotate (q : quaternion A) (v : vec) : vec :=
  let '(w, i, j, k) := q in
  let t := scaled (cross (i, j, k) v) (t_of_isize A 2) in
  added (added (scaled t w) (cross (i, j, k) t)) v.

(** nalgebra 0.22 Isometry3::transform_point (line 10): the rotated point plus the translation. *)
Definition transform_point (t : vec) (q : quaternion A) (p : vec) : vec := added (rotate q p) t.

(** window.draw_line: from where, to where, in which colour. *)
Record line : Type := mkLine { line_from : vec; line_to : vec; line_colour : vec }.

(** viz/src/bin/draw_occupancy_grid.rs:9-26 draw_frame_marker *)
Definition frame_marker (t : vec) (q : quaternion A) (length : T A) : list line :=
  let o := tzero A in let l := tone A in
  let origin := transform_point t q (o, o, o) in
  [mkLine origin (added origin (rotate q (length, o, o))) (l, o, o);
   mkLine origin (added origin (rotate q (o, length, o))) (o, l, o);
   mkLine origin (added origin (rotate q (o, o, length))) (o, o, l)].
End Marker.

(** viz/src/bin/draw_occupancy_grid.rs:100-104, step after integrate_next_pointcloud: the points
    drawn with their colour (in the arbitrary order of the HashMap) and the lines.  The render
    thread is at [RDraw] then. *)
Definition picture (poses : list pose) (s : state) : outcome (list (point * vec F32A) * list (line F32A)) :=
  match nth_error poses (index s) with
  | None => Panic
  | Some p =>
      Ret (map (fun e => (snd e, (f0, f32_lit 6 10, f32_lit 8 10))) (tracked s),
           frame_marker F32A (fst p) (snd p) f1)
  end.
