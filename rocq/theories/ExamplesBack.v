(** Examples for rays and the rays back. *)
From Coq Require Import ZArith List Bool Reals Lra Lia.
From Flocq Require Import Core BinarySingleNaN.
From Verif Require Import Base F32 FloatFacts Arith Geom RayCaster Spec SpecBack SpecShift ConverterProofs Examples ExamplesShift.
Open Scope Z_scope.

Lemma border_odd : forall x, on_border 0 1 x -> exists k, (2 * x = IZR (2 * k + 1))%R.
Proof. intros x [k ->]. exists k. rewrite plus_IZR, mult_IZR. lra. Qed.
Lemma nearest_whole : forall k, ZnearestA (IZR k) = k.
Proof. intro k. apply Znearest_imp. rewrite Rminus_diag_eq by reflexivity. rewrite Rabs_R0. lra. Qed.
Lemma at_whole : forall l, nearest_cell (map (fun _ => 0)%R l) 1 (map IZR l) = l.
Proof. unfold nearest_cell. induction l as [|k l IH]; cbn; [reflexivity|]. f_equal; [|exact IH]. replace ((IZR k - 0) / 1)%R with (IZR k) by field. apply nearest_whole. Qed.
Lemma whole_inside : forall l o, length o = length l -> ends_inside (map (fun _ => 0)%R l) 1 o (map IZR l).
Proof.
  intros l o L i Hi. rewrite at_whole. rewrite map_length in Hi.
  assert (E : nth i (map IZR l) 0%R = IZR (nth i l 0)) by exact (map_nth IZR l 0 i).
  assert (B : nth i (map (fun _ => 0)%R l) 0%R = 0%R) by exact (map_nth (fun _ => 0)%R l 0 i). rewrite E, B. split; intros _ H; lra.
Qed.

(** From the cell at the origin to the cell at (4,1). *)
Lemma bk_exact : ends_inside [0; 0]%R 1 [0; 0]%R [4; 1]%R /\ ends_inside [0; 0]%R 1 [4; 1]%R [0; 0]%R /\ no_corner [0; 0]%R 1 [0; 0]%R [4; 1]%R /\
  nearest_cell [0; 0]%R 1 [0; 0]%R = [0; 0] /\ nearest_cell [0; 0]%R 1 [4; 1]%R = [4; 1].
Proof.
  split; [exact (whole_inside [4; 1] [0; 0]%R eq_refl)|]. split; [exact (whole_inside [0; 0] [4; 1]%R eq_refl)|]. split; [|split; [exact (at_whole [0; 0])|exact (at_whole [4; 1])]].
  assert (H : forall u, on_border 0 1 (0 + u * (4 - 0))%R -> on_border 0 1 (0 + u * (1 - 0))%R -> False).
  { intros u B0 B1. apply border_odd in B0, B1. destruct B0 as [k B0], B1 as [l B1]. assert (E : IZR (4 * (2 * l + 1)) = IZR (2 * k + 1)) by (rewrite <- B0, mult_IZR, <- B1; ring). apply eq_IZR in E. lia. }
  intros u i j Hu Hi Hj N _ _. destruct i as [|[|i]], j as [|[|j]]; cbn [length] in *; try lia; unfold seg; cbn [map2 nth]; intros B B'; eapply H; eassumption.
Qed.

(** Through a corner of four cells. *)
Definition bk_o : point := [f0; f0].
Definition bk_c : point := [f1; f1].
Lemma bk_corner : exists (o e b : point) r, Forall finite o /\ Forall finite e /\ Forall finite b /\ r = f1 /\
  exists fuel path path' oc ec, cast_ray F32A fuel o e b r f0 = Ret (path, Some ec) /\ cast_ray F32A fuel e o b r f0 = Ret (path', Some oc) /\
  path ++ [ec] = [[0; 0]; [0; 1]; [1; 1]] /\ path' ++ [oc] = [[1; 1]; [1; 0]; [0; 0]].
Proof.
  exists bk_o, bk_c, bk_o, f1. do 3 (split; [repeat constructor|]). split; [reflexivity|].
  exists 10%nat, [[0; 0]; [0; 1]], [[1; 1]; [1; 0]], [0; 0], [1; 1]. split; [vm_compute; reflexivity|]. split; [vm_compute; reflexivity|]. split; reflexivity.
Qed.

(** A ray that passes a corner at a distance of about a ten-millionth of a cell. *)
Definition bk_e : point := [f32_lit 3 1; f32_lit 12582911 4194304].
Lemma bk_reals : map real bk_o = [0; 0]%R /\ map real bk_e = [3; 12582911 / 4194304]%R.
Proof.
  split; [reflexivity|]. unfold bk_e. cbn [map].
  destruct (steps_ok (-22) (f32_lit 3 1) 12582912) as [_ E1]; [vm_compute; reflexivity|]. destruct (steps_ok (-22) (f32_lit 12582911 4194304) 12582911) as [_ E2]; [vm_compute; reflexivity|].
  rewrite E1, E2. change (bpow radix2 (-22)) with (/ 4194304)%R. f_equal. lra.
Qed.
Lemma bk_close : no_corner (map real bk_o) 1 (map real bk_o) (map real bk_e).
Proof.
  destruct bk_reals as [-> ->].
  assert (H : forall u, on_border 0 1 (0 + u * (3 - 0))%R -> on_border 0 1 (0 + u * (12582911 / 4194304 - 0))%R -> False).
  { intros u B0 B1. apply border_odd in B0, B1. destruct B0 as [k B0], B1 as [l B1].
    assert (E : IZR (12582911 * (2 * k + 1)) = IZR (12582912 * (2 * l + 1))) by (rewrite !mult_IZR, <- B0, <- B1; field). apply eq_IZR in E. lia. }
  intros u i j Hu Hi Hj N _ _. destruct i as [|[|i]], j as [|[|j]]; cbn [length] in *; try lia; unfold seg; cbn [map2 nth]; intros B B'; eapply H; eassumption.
Qed.
Lemma bk_f32 : exists (o e b : point) r, real r = 1%R /\ no_corner (map real b) (real r) (map real o) (map real e) /\
  exists fuel path path' oc ec, cast_ray F32A fuel o e b r f0 = Ret (path, Some ec) /\ cast_ray F32A fuel e o b r f0 = Ret (path', Some oc) /\
  path ++ [ec] = [[0; 0]; [1; 0]; [1; 1]; [1; 2]; [2; 2]; [3; 2]; [3; 3]] /\ path' ++ [oc] = [[3; 3]; [3; 2]; [2; 2]; [2; 1]; [1; 1]; [1; 0]; [0; 0]].
Proof.
  assert (R1 : real f1 = 1%R) by (destruct (steps_ok 0 f1 1) as [_ E]; [vm_compute; reflexivity|rewrite E; change (bpow radix2 0) with 1%R; lra]).
  exists bk_o, bk_e, bk_o, f1. split; [exact R1|]. split; [rewrite R1; exact bk_close|].
  exists 20%nat, [[0; 0]; [1; 0]; [1; 1]; [1; 2]; [2; 2]; [3; 2]], [[3; 3]; [3; 2]; [2; 2]; [2; 1]; [1; 1]; [1; 0]], [0; 0], [3; 3].
  split; [vm_compute; reflexivity|]. split; [vm_compute; reflexivity|]. split; reflexivity.
Qed.
