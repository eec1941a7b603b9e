(** The repository's own unit tests, replayed on the model.  These are tests of the
    model's faithfulness, not proofs of any property. *)
From Coq Require Import ZArith List Bool.
From Flocq Require Import Core BinarySingleNaN.
From Verif Require Import Base F32 Arith Geom NdArray GridMap RayCaster NoiseModel.
Open Scope Z_scope.

(** decimal literals, given in hundredths *)
Definition h (n : Z) : f32 := f32_lit n 100.
Definition pt (l : list Z) : point := map h l.
Definition bnd (a b : list Z) : bounds := mkBounds (pt a) (pt b).
Definition point_releqb (a b : point) : bool :=
  forallb (fun xy => relative_eq (fst xy) (snd xy)) (combine a b).
Definition bounds_releqb (a b : bounds) : bool := bounds_relative_eq feps feps a b.
Definition obounds_releqb (a : outcome bounds) (b : bounds) : bool :=
  match a with Ret x => bounds_releqb x b | _ => false end.
Definition cells_eqb (a b : list cell) : bool :=
  Nat.eqb (length a) (length b) && forallb (fun xy => cell_eqb (fst xy) (snd xy)) (combine a b).
Definition ray_is (r : outcome (list cell * option cell)) (cs : list cell) (e : option cell) : bool :=
  match r with
  | Ret (cs', e') => cells_eqb cs' cs &&
      match e', e with Some x, Some y => cell_eqb x y | None, None => true | _, _ => false end
  | _ => false
  end.

(** cell_bounds.rs tests *)
Definition cbe (a b : cell_bounds) : bool := cb_eqb a b.
Definition ocbe (a : outcome cell_bounds) (b : cell_bounds) : bool :=
  match a with Ret x => cb_eqb x b | _ => false end.
Example t_from_bounds2 :
  cbe (cb_from_bounds (bnd [0;0] [20;20]) (h 10)) (mkCB [0;0] [2;2]) &&
  cbe (cb_from_bounds (bnd [-30;-30] [-10;-10]) (h 10)) (mkCB [-3;-3] [-1;-1]) &&
  cbe (cb_from_bounds (bounds_empty 3) (h 10)) (cb_empty 3) = true.
Proof. vm_compute. reflexivity. Qed.
Example t_cb_discretized :
  ocbe (cb_discretized (mkCB [0;0] [2;2]) 2) (mkCB [0;0] [2;2]) &&
  ocbe (cb_discretized (mkCB [0;0] [3;3]) 2) (mkCB [0;0] [4;4]) &&
  ocbe (cb_discretized (mkCB [1;1] [3;3]) 2) (mkCB [0;0] [4;4]) &&
  ocbe (cb_discretized (mkCB [-1;-1] [3;3]) 2) (mkCB [-2;-2] [4;4]) &&
  ocbe (cb_discretized (mkCB [-3;-3] [-1;-1]) 2) (mkCB [-4;-4] [0;0]) &&
  ocbe (cb_discretized (mkCB [-256;-692;-292] [279;971;283]) 100)
       (mkCB [-300;-700;-300] [300;1000;300]) = true.
Proof. vm_compute. reflexivity. Qed.

(** converter.rs tests *)
Definition i_range := map (fun k => k - 100) (zrange 200).
Example t_cell_from_point2 :
  forallb (fun i =>
    let pv := fmul (f32_of_Z i) (h 10) in
    cell_eqb (cell_from_point F32A [fsub pv (f32_lit 955 1000); fsub pv (f32_lit 1955 1000)]
                              [h (-100); h (-200)] (h 10)) [i; i] &&
    cell_eqb (cell_from_point F32A [fsub pv (h 100); fsub pv (h 200)]
                              [h (-100); h (-200)] (h 10)) [i; i]) i_range = true.
Proof. vm_compute. reflexivity. Qed.
Example t_point_from_cell2 :
  forallb (fun i =>
    let pv := fmul (f32_of_Z i) (h 10) in
    point_releqb (point_from_cell F32A [i; i] [h (-100); h (-200)] (h 10))
                 [fsub pv (h 100); fsub pv (h 200)]) i_range = true.
Proof. vm_compute. reflexivity. Qed.
Example t_cell_from_point_n3 :
  forallb (fun i =>
    let pv := fmul (f32_of_Z i) (h 10) in
    cell_eqb (cell_from_point_n F32A
        [fsub pv (f32_lit 1045 1000); fsub pv (f32_lit 205 100); fsub pv (f32_lit 3055 1000)]
        [h (-100); h (-200); h (-300)] [h 10; h 20; h 30]) [i; i / 2; i / 3]) i_range = true.
Proof. vm_compute. reflexivity. Qed.

(** bounds.rs tests *)
Example t_from_cell_bounds3 :
  bounds_releqb (bounds_from_cell_bounds (mkCB [-1;-1;-1] [2;2;2]) (h 10))
                (bnd [-10;-10;-10] [20;20;20]) &&
  bounds_releqb (bounds_from_cell_bounds_n (mkCB [-1;-1;-1] [2;2;2]) [h 10; h 20; h 30])
                (bnd [-10;-20;-30] [20;40;60]) &&
  obounds_releqb (bounds_from_size_cells [3;3;3] (h 10) [-1;-1;-1])
                (bnd [-10;-10;-10] [20;20;20]) &&
  obounds_releqb (bounds_from_size_cells_n [3;3;3] [h 10; h 20; h 30] [-1;-1;-1])
                (bnd [-10;-20;-30] [20;40;60]) = true.
Proof. vm_compute. reflexivity. Qed.
Example t_discretized3 :
  obounds_releqb (bounds_discretized (bnd [-2;10;-131] [110;505;-130]) (h 10) false)
                 (bnd [-10;10;-140] [110;510;-130]) &&
  obounds_releqb (bounds_discretized (bnd [-2;10;-131] [110;505;-130]) (h 10) true)
                 (bnd [-10;10;-140] [120;510;-120]) = true.
Proof. vm_compute. reflexivity. Qed.
Example t_enclosing :
  bounds_eqb (bounds_enclosing (bnd [-2;10;-131] [110;505;10]) (bnd [0;20;0] [120;605;100]))
             (bnd [-2;10;-131] [120;605;100]) &&
  bounds_eqb (bounds_enclosing (bounds_empty 2) (bnd [-2;10] [110;505])) (bnd [-2;10] [110;505])
  = true.
Proof. vm_compute. reflexivity. Qed.
Example t_overlapping :
  bounds_eqb (bounds_overlapping (bnd [0;1000] [100;1100]) (bnd [-50;950] [50;1050]))
             (bnd [0;1000] [50;1050]) &&
  bounds_eqb (bounds_overlapping (bnd [0;1000;2000] [100;1100;2100]) (bnd [50;950;2050] [150;1050;2150]))
             (bnd [50;1000;2050] [100;1050;2100]) &&
  bounds_eqb (bounds_overlapping (bnd [0;1000;2000] [100;1100;2100])
                                 (bnd [100;1050;2050] [150;1150;2150])) (bounds_empty 3) = true.
Proof. vm_compute. reflexivity. Qed.

(** point_cloud.rs tests *)
Example t_point_cloud :
  match pc_from_points 2 [pt [0;-120]; pt [110;120]] with
  | Ret m => bounds_eqb (pc_bounds m) (bnd [0;-120] [110;120]) && Nat.eqb (pc_num_points m) 2
  | _ => false
  end = true.
Proof. vm_compute. reflexivity. Qed.

(** ray_caster.rs tests *)
Definition cr (o e b : list Z) (ml : Z) := cast_ray F32A 100 (pt o) (pt e) (pt b) (h 10) (h ml).
Example t_cast_ray2 :
  ray_is (cr [0;0] [31;30] [0;0] 50) [[0;0];[1;0];[1;1];[2;1];[2;2];[3;2]] (Some [3;3]) &&
  ray_is (cr [0;1] [30;31] [0;0] 50) [[0;0];[0;1];[1;1];[1;2];[2;2];[2;3]] (Some [3;3]) &&
  ray_is (cr [31;30] [1;0] [0;0] 50) [[3;3];[3;2];[2;2];[2;1];[1;1];[1;0]] (Some [0;0]) &&
  ray_is (cr [31;0] [0;31] [0;0] 50) [[3;0];[3;1];[2;1];[2;2];[1;2];[1;3]] (Some [0;3]) &&
  ray_is (cr [0;31] [31;0] [0;0] 50) [[0;3];[1;3];[1;2];[2;2];[2;1];[3;1]] (Some [3;0]) &&
  ray_is (cr [0;0] [30;0] [0;0] 50) [[0;0];[1;0];[2;0]] (Some [3;0]) &&
  ray_is (cr [0;30] [0;0] [0;0] 50) [[0;3];[0;2];[0;1]] (Some [0;0]) &&
  ray_is (cr [1;0] [31;30] [0;0] 28) [[0;0];[1;0];[1;1];[2;1];[2;2]] None &&
  ray_is (cr [1;0] [31;30] [-10;-10] 50) [[1;1];[2;1];[2;2];[3;2];[3;3];[4;3]] (Some [4;4]) &&
  ray_is (cr [1;0] [2;0] [0;0] 50) [] (Some [0;0]) = true.
Proof. vm_compute. reflexivity. Qed.
Example t_cast_ray3 :
  ray_is (cr [1;0;0] [31;30;30] [0;0;0] 100)
    [[0;0;0];[1;0;0];[1;0;1];[1;1;1];[2;1;1];[2;1;2];[2;2;2];[3;2;2];[3;2;3]] (Some [3;3;3]) &&
  ray_is (cr [0;1;0] [30;31;30] [0;0;0] 100)
    [[0;0;0];[0;1;0];[0;1;1];[1;1;1];[1;2;1];[1;2;2];[2;2;2];[2;3;2];[2;3;3]] (Some [3;3;3]) &&
  ray_is (cr [31;30;30] [1;0;0] [0;0;0] 100)
    [[3;3;3];[3;3;2];[3;2;2];[2;2;2];[2;2;1];[2;1;1];[1;1;1];[1;1;0];[1;0;0]] (Some [0;0;0]) &&
  ray_is (cr [31;0;31] [0;31;0] [0;0;0] 100)
    [[3;0;3];[3;1;3];[3;1;2];[2;1;2];[2;2;2];[2;2;1];[1;2;1];[1;3;1];[1;3;0]] (Some [0;3;0]) &&
  ray_is (cr [0;31;0] [31;0;31] [0;0;0] 100)
    [[0;3;0];[0;3;1];[1;3;1];[1;2;1];[1;2;2];[2;2;2];[2;1;2];[2;1;3];[3;1;3]] (Some [3;0;3]) &&
  ray_is (cr [1;0;0] [31;30;30] [0;0;0] 35)
    [[0;0;0];[1;0;0];[1;0;1];[1;1;1];[2;1;1];[2;1;2];[2;2;2]] None &&
  ray_is (cr [1;0;0] [31;30;30] [-10;-10;-10] 100)
    [[1;1;1];[2;1;1];[2;1;2];[2;2;2];[3;2;2];[3;2;3];[3;3;3];[4;3;3];[4;3;4]] (Some [4;4;4]) = true.
Proof. vm_compute. reflexivity. Qed.

Definition set_eqb (a b : cset) : bool :=
  forallb (fun x => set_mem x b) a && forallb (fun x => set_mem x a) b.
Example t_cast_rays2 :
  match pc_from_points 2 [pt [31;30]; pt [30;0]; pt [0;30]] with
  | Ret m =>
      match cast_rays 100 (pt [1;0]) m (bnd [0;0] [40;40]) (h 10) (h 50) with
      | Ret (f, o) =>
          set_eqb f [[0;0];[1;0];[1;1];[2;1];[2;2];[3;2];[2;0];[0;1];[0;2]] &&
          set_eqb o [[3;3];[0;3];[3;0]]
      | _ => false
      end
  | _ => false
  end = true.
Proof. vm_compute. reflexivity. Qed.

(** grid_map.rs tests *)
Definition gm_test (init : bounds) (req : bounds) (expect_b : bounds) (expect : list Z) (shape : list Z)
  : bool :=
  match gm_new (h 10) init 2 1 with
  | Ret g =>
      match gm_expand_bounds g req 0 with
      | Ret g' => bounds_releqb (gm_bounds g') expect_b &&
                  cell_eqb (nd_data (gm_data g')) expect && cell_eqb (nd_shape (gm_data g')) shape
      | _ => false
      end
  | _ => false
  end.
Example t_expand_bounds2 :
  gm_test (bnd [0;0] [20;20]) (bnd [10;10] [30;30]) (bnd [0;0] [40;40])
          [1;1;0;0; 1;1;0;0; 0;0;0;0; 0;0;0;0] [4;4] &&
  gm_test (bnd [0;0] [20;20]) (bnd [-10;-10] [10;10]) (bnd [-20;-20] [20;20])
          [0;0;0;0; 0;0;0;0; 0;0;1;1; 0;0;1;1] [4;4] &&
  gm_test (bnd [0;0] [0;0]) (bnd [30;30] [40;40]) (bnd [20;20] [60;60])
          (repeat 0 16) [4;4] = true.
Proof. vm_compute. reflexivity. Qed.
Example t_expand_bounds3 :
  gm_test (bnd [0;0;0] [20;20;20]) (bnd [10;10;10] [30;30;30]) (bnd [0;0;0] [40;40;40])
          ([1;1;0;0; 1;1;0;0; 0;0;0;0; 0;0;0;0] ++ [1;1;0;0; 1;1;0;0; 0;0;0;0; 0;0;0;0] ++ repeat 0 32)
          [4;4;4] &&
  gm_test (bnd [0;0;0] [0;0;0]) (bnd [30;30;30] [40;40;40]) (bnd [20;20;20] [60;60;60])
          (repeat 0 64) [4;4;4] = true.
Proof. vm_compute. reflexivity. Qed.

(** lidar_noise_model.rs test integrate_point_cloud2, with a logarithm given as a
    table of the values the repository's math tests list (0.7 -> 0.84729785,
    0.4 -> -0.40546516) and the rounded values of the others. *)
Definition test_model : lidar :=
  mkLidar (f32_lit 84729785 100000000) (f32_lit (-40546516) 100000000) (f32_lit (-2) 1)
          (f32_lit 351 100) f0 DEFAULT_MAX_RANGE.
Definition id_order : iteration_order := fun s => s.
Fixpoint integrate_n (n : nat) (g : grid_map f32) (o : point) (m : matrix) : outcome (grid_map f32) :=
  match n with
  | O => Ret g
  | S k => do g' <- integrate_point_cloud 100 id_order id_order test_model g o m; integrate_n k g' o m
  end.
Definition getb (g : grid_map f32) (c : cell) (v : f32) : bool :=
  match gm_get g c with Ret x => feqb x v | _ => false end.
Definition occb (g : grid_map f32) (c : cell) (v : bool) : bool :=
  match occupied test_model g c with Ret x => Bool.eqb x v | _ => false end.
Example t_integrate2 :
  match pc_from_points 2 [pt [10;0]; pt [0;10]], gm_new (h 10) (bounds_empty 2) 4 f0 with
  | Ret m, Ret g =>
    match integrate_n 1 g (pt [0;0]) m, integrate_n 4 g (pt [0;0]) m, integrate_n 6 g (pt [0;0]) m with
    | Ret g1, Ret g4, Ret g6 =>
      getb g1 [0;0] (miss_logodds test_model) && getb g1 [1;0] (hit_logodds test_model) &&
      getb g1 [0;1] (hit_logodds test_model) && getb g1 [1;1] f0 &&
      getb g4 [0;0] (fmul (h 400) (miss_logodds test_model)) &&
      getb g4 [1;0] (fmul (h 400) (hit_logodds test_model)) &&
      occb g1 [0;0] false && occb g1 [1;0] true && occb g1 [1;1] false &&
      getb g6 [0;0] (min_logodds test_model) && getb g6 [1;0] (max_logodds test_model)
    | _, _, _ => false
    end
  | _, _ => false
  end = true.
Proof. vm_compute. reflexivity. Qed.
