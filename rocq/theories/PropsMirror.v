(** C82: mirror images. *)
From Coq Require Import ZArith List Bool Reals Permutation.
From Flocq Require Import Core BinarySingleNaN.
From Verif Require Import Base F32 Arith Geom RayCaster Spec SpecRay MirrorProofs Examples ExamplesRay ExamplesMirror.
Open Scope Z_scope.

(** The cell of the mirror image is the mirror image of the cell. *)
Theorem C82_cell : forall fl (p b : point) r, length fl = length p -> length fl = length b ->
  Forall (fun z => Z.abs z <= 2 ^ 62) (cell_from_point F32A p b r) ->
  cell_from_point F32A (mirrored fl p) (mirrored fl b) r = mirrored_cell fl (cell_from_point F32A p b r).
Proof. exact mirl_cells. Qed.
Print Assumptions C82_cell.

(** Casting the mirror image of a ray gives the mirror image of what casting the ray gives, whether it
    returns, panics or goes on. *)
Theorem C82_ray : forall fl fuel d (o e b : point) r m, (d = 2 \/ d = 3)%nat -> length fl = d -> length o = d -> length e = d -> length b = d ->
  Forall (fun x => is_nan x = false) (direction o e) ->
  Forall (fun z => Z.abs z <= 2 ^ 62) (cell_from_point F32A o b r) -> Forall (fun z => Z.abs z <= 2 ^ 62) (cell_from_point F32A e b r) -> Z.of_nat fuel < 2 ^ 62 ->
  cast_ray F32A fuel (mirrored fl o) (mirrored fl e) (mirrored fl b) r m =
  obind (cast_ray F32A fuel o e b r m) (fun x => Ret (mirrored_ray fl x)).
Proof. exact ray_mirrored. Qed.
Print Assumptions C82_ray.

(** The same for the cells of whole scans. *)
Theorem C82_scan : forall fl fuel d (o : point) cloud cloud' bs bs' r m, (d = 2 \/ d = 3)%nat -> length fl = d -> length o = d -> length (bmin bs) = d ->
  (forall p, In p (pc_points cloud) -> length p = d /\ Forall (fun x => is_nan x = false) (direction o p) /\
     Forall (fun z => Z.abs z <= 2 ^ 62) (cell_from_point F32A p (bmin bs) r)) ->
  Forall (fun z => Z.abs z <= 2 ^ 62) (cell_from_point F32A o (bmin bs) r) -> Z.of_nat fuel < 2 ^ 62 ->
  pc_points cloud' = map (mirrored fl) (pc_points cloud) -> bmin bs' = mirrored fl (bmin bs) ->
  forall free occ, cast_rays fuel o cloud bs r m = Ret (free, occ) ->
  exists free' occ', cast_rays fuel (mirrored fl o) cloud' bs' r m = Ret (free', occ') /\
    Permutation (map (mirrored_cell fl) free) free' /\ Permutation (map (mirrored_cell fl) occ) occ'.
Proof. exact scan_mirrored. Qed.
Print Assumptions C82_scan.

Example C82_example : Forall (fun x => is_nan x = false) (direction ex_o sl_e) /\
  Forall (fun z => Z.abs z <= 2 ^ 62) (cell_from_point F32A ex_o ex_b f1) /\ Forall (fun z => Z.abs z <= 2 ^ 62) (cell_from_point F32A sl_e ex_b f1) /\
  mirrored_cell mi_fl [2; 1; 3] = [-2; 1; -3].
Proof. exact mi_hyps. Qed.
Example C82_scan_example : cast_rays 20 [f0; f0] ex_cloud (mkBounds [f0; f0] [f0; f0]) f1 f0 = Ret ([[0; 0]; [1; 0]], [[3; 0]; [2; 0]]) /\
  Forall (fun p => length p = 2%nat /\ Forall (fun x => is_nan x = false) (direction [f0; f0] p) /\ Forall (fun z => Z.abs z <= 2 ^ 62) (cell_from_point F32A p [f0; f0] f1)) (pc_points ex_cloud).
Proof. exact mi_scan. Qed.

(** It is needed that the direction consists of numbers: a ray along the first axis, so short that the
    square of its length is zero, goes down the second axis, and so does its mirror image. *)
Theorem C82_any_ray_refuted : exists fl o e b r m rc oe, length fl = 2%nat /\ length o = 2%nat /\ length e = 2%nat /\ length b = 2%nat /\
  Forall finite o /\ Forall finite e /\ Forall finite b /\ res_ok r /\
  cell_from_point F32A o b r = [0; 0] /\ cell_from_point F32A e b r = [1; 0] /\
  cast_ray F32A 9 o e b r m = Ret (rc, oe) /\ cast_ray F32A 9 (mirrored fl o) (mirrored fl e) (mirrored fl b) r m = Ret (rc, oe) /\
  In [0; -1] rc /\ ~ In (mirrored_cell fl [0; -1]) rc.
Proof. exact tiny_sideways. Qed.
Print Assumptions C82_any_ray_refuted.
