(** Concrete rays: examples for the theorems and witnesses of non-termination. *)
From Coq Require Import ZArith List Bool Reals Lra Lia Psatz.
From Flocq Require Import Core BinarySingleNaN.
From Verif Require Import Base F32 FloatFacts RoundError Arith Geom RayCaster Spec MathProofs ConverterProofs BoundsProofs RayProofs CastProofs RaysProofs RayRange IdealRay Examples.
Open Scope Z_scope.

(** A ray that has missed its end on one axis never returns. *)
Lemma passed_never : forall A (inf_add : tadd A (tinf A) (tinf A) = tinf A) fuel d e cur tm acc i,
  loop_ok A d e cur tm -> (forall c, too_far A e c = false) -> (i < d)%nat ->
  0 < t_to_isize A (nth i (re_step A e) (tzero A)) * (nth i cur 0 - nth i (re_end_cell A e) 0) ->
  forall res, ray_loop A fuel e cur tm acc <> Ret res.
Proof.
  intros A inf_add. induction fuel as [|fuel IH]; intros d e cur tm acc i H NF Hi P res; [discriminate|].
  rewrite loop_unfold. cbv zeta. destruct (in_isize _); [|discriminate].
  set (s := t_to_isize A (nth i (re_step A e) (tzero A))) in *.
  assert (P' : 0 < s * (nth i (next_cell A e cur tm) 0 - nth i (re_end_cell A e) 0)).
  { unfold next_cell. destruct H. assert (Hs : (select_dim A tm < d)%nat).
    { rewrite <- lo_tm at 1. apply select_dim_lt. lia. }
    destruct (Nat.eq_dec (select_dim A tm) i) as [Q|Q].
    - rewrite Q. rewrite nth_upd_same by lia. fold s. nia.
    - rewrite nth_upd_other by assumption. exact P. }
  assert (N : next_cell A e cur tm <> re_end_cell A e). { intro Q. rewrite Q in P'. lia. }
  replace (cell_eqb _ _) with false by (symmetry; now apply cell_eqb_neq). rewrite NF.
  eapply IH; eauto. now apply loop_ok_next.
Qed.

Definition w_o : point := [f0; f1].
Definition w_e : point := [fhalf; fhalf].
Definition w_b : point := [f0; f0].
Definition w_far : point := [f32_of_Z (2 ^ 80); f0].

Lemma never_returns : exists (o e b : point) (r : f32),
  length o = 2%nat /\ length e = 2%nat /\ length b = 2%nat /\
  Forall finite o /\ Forall finite e /\ Forall finite b /\ finite r /\ fltb f0 r = true /\
  forall fuel m res, fltb f0 m = false -> cast_ray F32A fuel o e b r m <> Ret res.
Proof.
  exists w_o, w_e, w_b, f1.
  do 3 (split; [reflexivity|]). do 3 (split; [repeat constructor; vm_compute; reflexivity|]). do 2 (split; [vm_compute; reflexivity|]).
  intros fuel m res Hm. rewrite cast_unfold.
  set (o := w_o). set (e := w_e). set (b := w_b).
  assert (EO : cell_from_point F32A o b f1 = [0; 1]) by (vm_compute; reflexivity).
  assert (EE : cell_from_point F32A e b f1 = [1; 1]) by (vm_compute; reflexivity).
  change (Nat.eqb (length o) 2 || Nat.eqb (length o) 3) with true. cbv iota.
  rewrite EO, EE. change (cell_eqb [0; 1] [1; 1]) with false. cbv iota.
  assert (OK : loop_ok F32A 2 (env_of F32A o e b f1 m) [0; 1] (tm_of F32A o e b f1)).
  { rewrite <- EO. apply (loop_ok_init F32A f32_sig); auto. rewrite EO, EE. discriminate. }
  assert (NF : forall c, too_far F32A (env_of F32A o e b f1 m) c = false).
  { intro c. unfold too_far. cbn [re_max_len env_of tltb tzero F32A]. now rewrite Hm. }
  destruct fuel as [|fuel]; [discriminate|].
  rewrite loop_unfold. cbv zeta.
  set (V := vdivs F32A (vsub F32A e o) (norm F32A (vsub F32A e o))).
  assert (ST : re_step F32A (env_of F32A o e b f1 m) = signum F32A V) by reflexivity.
  assert (S1 : t_to_isize F32A (nth 1 (signum F32A V) (tzero F32A)) = -1) by (vm_compute; reflexivity).
  assert (SD : select_dim F32A (tm_of F32A o e b f1) = 1%nat) by (vm_compute; reflexivity).
  assert (NC : next_cell F32A (env_of F32A o e b f1 m) [0; 1] (tm_of F32A o e b f1) = [0; 0]).
  { unfold next_cell. rewrite SD, ST, S1. reflexivity. }
  rewrite SD, ST, S1. change (in_isize (nth 1 [0; 1] 0 + -1)) with true. cbv iota. rewrite NC.
  change (re_end_cell F32A (env_of F32A o e b f1 m)) with (cell_from_point F32A e b f1). rewrite EE.
  change (cell_eqb [0; 0] [1; 1]) with false. cbv iota. rewrite NF.
  apply (passed_never F32A f32_inf_add _ 2 _ _ _ _ 1%nat); auto.
  - rewrite <- NC. apply loop_ok_next; auto. rewrite NC.
    change (re_end_cell F32A (env_of F32A o e b f1 m)) with (cell_from_point F32A e b f1). rewrite EE. discriminate.
  - rewrite ST, S1. change (re_end_cell F32A (env_of F32A o e b f1 m)) with (cell_from_point F32A e b f1). rewrite EE.
    cbn. lia.
Qed.

(** A length limit does not help when the squared length overflows. *)
Lemma limited_never_returns : exists (o e b : point) (r m : f32),
  length o = 2%nat /\ length e = 2%nat /\ length b = 2%nat /\
  Forall finite o /\ Forall finite e /\ Forall finite b /\ finite r /\ fltb f0 r = true /\
  finite m /\ fltb f0 m = true /\
  forall fuel res, cast_ray F32A fuel o e b r m <> Ret res.
Proof.
  exists w_b, w_far, w_b, f1, (f32_of_Z 10).
  do 3 (split; [reflexivity|]). do 3 (split; [repeat constructor; vm_compute; reflexivity|]). do 4 (split; [vm_compute; reflexivity|]).
  intros fuel res. rewrite cast_unfold.
  set (o := w_b). set (e := w_far). set (m := f32_of_Z 10).
  assert (EO : cell_from_point F32A o o f1 = [0; 0]) by (vm_compute; reflexivity).
  assert (EE : cell_from_point F32A e o f1 = [isize_max; 0]) by (vm_compute; reflexivity).
  change (Nat.eqb (length o) 2 || Nat.eqb (length o) 3) with true. cbv iota.
  rewrite EO, EE. change (cell_eqb [0; 0] [isize_max; 0]) with false. cbv iota.
  assert (OK : loop_ok F32A 2 (env_of F32A o e o f1 m) [0; 0] (tm_of F32A o e o f1)).
  { rewrite <- EO. apply (loop_ok_init F32A f32_sig); auto. rewrite EO, EE. discriminate. }
  apply (stuck F32A f32_inf_add _ 2); auto; vm_compute; reflexivity.
Qed.

(** ** Examples *)
Definition ex_o : point := [f32_lit 1 4; f32_lit (-3) 2; f0].
Definition ex_e : point := [f32_lit 13 4; f32_lit 1 2; f1].
Definition ex_b : point := [f0; f32_lit (-2) 1; f0].
Lemma ex_ray : cast_ray F32A 20 ex_o ex_e ex_b f1 f0 =
  Ret ([[0; 1; 0]; [1; 1; 0]; [2; 1; 0]; [2; 1; 1]; [2; 2; 1]; [3; 2; 1]], Some [3; 3; 1]).
Proof. vm_compute. reflexivity. Qed.

(** The same ray cut at length 2. *)
Lemma ex_ray_cut : cast_ray F32A 20 ex_o ex_e ex_b f1 (f32_of_Z 2) = Ret ([[0; 1; 0]; [1; 1; 0]; [2; 1; 0]], None).
Proof. vm_compute. reflexivity. Qed.
Lemma ex_forward : Forall finite ex_o /\ Forall finite ex_e /\
  finite (fsqrt (square_length (map2 fsub ex_e ex_o))) /\ fltb f0 (fsqrt (square_length (map2 fsub ex_e ex_o))) = true.
Proof. split; [|split]; [repeat constructor; vm_compute; reflexivity..|split; vm_compute; reflexivity]. Qed.

Lemma ex_same_cell : cell_from_point F32A ex_o ex_b f1 = cell_from_point F32A [f32_lit 1 8; f32_lit (-5) 4; f32_lit 1 3] ex_b f1.
Proof. vm_compute. reflexivity. Qed.

Section Real.
Local Open Scope R_scope.
Lemma ideal_example : ends_inside [0; 0] 1 [0; 1 / 2] [3; 1] /\
  nearest_cell [0; 0] 1 [0; 1 / 2] = [0%Z; 1%Z] /\ nearest_cell [0; 0] 1 [3; 1] = [3%Z; 1%Z].
Proof.
  assert (N : forall n : Z, ZnearestA ((IZR n - 0) / 1) = n).
  { intro n. replace ((IZR n - 0) / 1) with (IZR n) by field. apply (Zrnd_IZR (Znearest (Z.leb 0))). }
  assert (E : nearest_cell [0; 0] 1 [3; 1] = [3%Z; 1%Z]).
  { unfold nearest_cell. cbn [map2]. now rewrite !N. }
  split; [|split].
  - unfold ends_inside. rewrite E. cbv zeta. intros [|[|i]] Hi; cbn in Hi; try lia; cbn [nth]; split; intros; lra.
  - unfold nearest_cell. cbn [map2]. rewrite N. f_equal. f_equal.
    replace ((1 / 2 - 0) / 1) with (/ 2) by field. unfold Znearest.
    assert (F : Zfloor (/ 2) = 0%Z) by (apply Zfloor_imp; simpl; lra). rewrite F.
    rewrite Rcompare_Eq by lra. cbn. apply Zceil_imp. simpl. lra.
  - exact E.
Qed.

Lemma range_by : forall (r : f32) (o e b : point), finite r -> / 1024 <= real r <= 1024 ->
  Forall (within_cells (2 ^ 20) r) o -> Forall (within_cells (2 ^ 20) r) e -> Forall (within_cells (2 ^ 20) r) b ->
  Forall2 (fun x y => real x = real y \/ (/ 1024 <= Rabs (real x - real y))) o e -> ray_range r o e b.
Proof.
  intros r o e b F B A1 A2 A3 A4. unfold ray_range. split; [assumption|]. split; [|split; [assumption|split; [assumption|split; [assumption|]]]].
  - assert (bp (-30) <= bp (-10)) by (apply bpow_le; lia). assert (bp 10 <= bp 30) by (apply bpow_le; lia).
    replace (bp (-10)) with (/ 1024) in * by (unfold bpow; simpl; lra). replace (bp 10) with 1024 in * by (unfold bpow; simpl; lra). lra.
  - clear A1 A2 A3. induction A4 as [|x y l l' [H|H] _ IH]; constructor; auto; right. eapply Rle_trans; [|exact H].
    assert (bp (-40) <= / 1048576). { apply Rle_trans with (bp (-20)). apply bpow_le; lia. unfold bpow; simpl; lra. }
    pose proof (bpow_ge_0 radix2 (-40)). apply Rle_trans with (/ 1048576 * 1024); [|lra]. apply Rmult_le_compat; lra.
Qed.

Definition ax_o : point := [f0; f32_lit (-7) 2; f1].
Definition ax_e : point := [f0; f32_lit 5 2; f1].
Definition ax_b : point := [f0; f0; f1].
Lemma axis_range : ray_range fhalf ax_o ax_e ax_b.
Proof.
  assert (FH : finite fhalf) by fin. assert (VH : B2R fhalf = / 2) by (to_SF fhalf).
  closed_float (f32_lit (-7) 2). closed_float (f32_lit 5 2).
  change (2 ^ 20)%Z with 1048576%Z.
  assert (W : forall x : f32, finite x -> Rabs (real x) <= 10 -> within_cells 1048576 fhalf x).
  { intros x F H. split; [assumption|]. unfold real in *. rewrite VH. lra. }
  apply range_by; try assumption; unfold real.
  - rewrite VH. lra.
  - repeat apply Forall_cons; [..|apply Forall_nil]; apply W; try fin; unfold real; [simpl|rewrite V|rewrite f1_real]; apply Rabs_le; lra.
  - repeat apply Forall_cons; [..|apply Forall_nil]; apply W; try fin; unfold real; [simpl|rewrite V0|rewrite f1_real]; apply Rabs_le; lra.
  - repeat apply Forall_cons; [..|apply Forall_nil]; apply W; try fin; unfold real; [simpl|simpl|rewrite f1_real]; apply Rabs_le; lra.
  - apply Forall2_cons; [now left|apply Forall2_cons; [|apply Forall2_cons; [now left|apply Forall2_nil]]]. right. rewrite V, V0. rewrite Rabs_left; lra.
Qed.
Lemma axis_apart : forall i, (i < 3)%nat -> i <> 1%nat -> real (nth i ax_o f0) = real (nth i ax_e f0).
Proof. intros [|[|[|i]]] Hi N; try lia; reflexivity. Qed.
Lemma axis_cells : cell_from_point F32A ax_o ax_b fhalf = [0; -7; 0]%Z /\ cell_from_point F32A ax_e ax_b fhalf = [0; 5; 0]%Z.
Proof. split; vm_compute; reflexivity. Qed.
Lemma limit_ok : fltb f0 (f32_of_Z 3) = true /\ finite (f32_of_Z 3) /\ real (f32_of_Z 3) <= 1048576 * real fhalf.
Proof.
  split; [vm_compute; reflexivity|]. split; [fin|]. unfold real. replace (B2R fhalf) with (/ 2) by (symmetry; to_SF fhalf).
  closed_float (f32_of_Z 3). rewrite V. lra.
Qed.
(** A sloped ray whose end is a quarter of a cell or more away from every border. *)
Definition sl_e : point := [f32_lit 13 4; f32_lit 3 4; f1].
Lemma off_by : forall g x n, 0 < g -> IZR n + g <= x <= IZR n + 1 - g -> forall k, g <= Rabs (x - IZR k).
Proof.
  intros g x n P H k. destruct (Z_le_gt_dec k n) as [L|L].
  - apply IZR_le in L. rewrite Rabs_pos_eq by lra. lra.
  - assert (X : (n + 1 <= k)%Z) by lia. apply IZR_le in X. rewrite plus_IZR in X. rewrite Rabs_left1 by lra. lra.
Qed.
Lemma sloped_short : ray_short f1 ex_o sl_e ex_b.
Proof.
  closed_float (f32_lit 1 4). closed_float (f32_lit (-3) 2). closed_float (f32_lit 13 4). closed_float (f32_lit 3 4). closed_float (f32_lit (-2) 1).
  assert (W : forall (n : Z) (x : f32), (10 <= n)%Z -> finite x -> Rabs (B2R x) <= 10 -> within_cells n f1 x).
  { intros n x N F H. apply IZR_le in N. split; [assumption|]. unfold real. rewrite f1_real. lra. }
  assert (A : forall n, (10 <= n)%Z -> Forall (within_cells n f1) ex_o /\ Forall (within_cells n f1) sl_e /\ Forall (within_cells n f1) ex_b).
  { intros n N. split; [|split]; repeat apply Forall_cons; try apply Forall_nil; apply W; try assumption; try fin;
    rewrite ?V, ?V0, ?V1, ?V2, ?V3, ?f1_real; simpl; apply Rabs_le; lra. }
  destruct (A (2 ^ 20)%Z ltac:(lia)) as (A1 & A2 & A3). destruct (A (2 ^ 15)%Z ltac:(lia)) as (B1 & B2 & B3).
  split; [|split; [exact B1|split; [exact B2|split; [exact B3|]]]].
  - apply range_by; try assumption; [fin|unfold real; rewrite f1_real; lra|]. unfold real.
    repeat apply Forall2_cons; try apply Forall2_nil; right; rewrite ?V, ?V0, ?V1, ?V2, ?f1_real; simpl; rewrite Rabs_left; lra.
  - unfold real. repeat apply Forall2_cons; try apply Forall2_nil; rewrite ?V, ?V0, ?V1, ?V2, ?f1_real; simpl; apply Rabs_le; lra.
Qed.
Lemma sloped_clear : end_clear (/ 16) f1 ex_o sl_e ex_b.
Proof.
  closed_float (f32_lit 13 4). closed_float (f32_lit 3 4). closed_float (f32_lit (-2) 1).
  intros i k Hi _. unfold real. rewrite f1_real, !Rmult_1_r.
  destruct i as [|[|[|i]]]; [..|cbn in Hi; lia]; cbn [nth sl_e ex_b]; rewrite ?V, ?V0, ?V1, ?f1_real; simpl (B2R f0).
  - match goal with |- _ <= Rabs ?x => replace x with (11 / 4 - IZR k) by lra end. apply (off_by _ _ 2); lra.
  - match goal with |- _ <= Rabs ?x => replace x with (9 / 4 - IZR k) by lra end. apply (off_by _ _ 2); lra.
  - match goal with |- _ <= Rabs ?x => replace x with (1 / 2 - IZR k) by lra end. apply (off_by _ _ 0); lra.
Qed.
Lemma sloped_ray : cast_ray F32A 20 ex_o sl_e ex_b f1 f0 =
    Ret ([[0; 1; 0]; [1; 1; 0]; [2; 1; 0]; [2; 2; 0]; [2; 2; 1]; [3; 2; 1]]%Z, Some [3; 3; 1]%Z).
Proof. vm_compute. reflexivity. Qed.
Lemma sloped_limit : fltb f0 (f32_of_Z 3) = true /\ finite (f32_of_Z 3) /\ real (f32_of_Z 3) <= 1048576 * real f1 /\
  cast_ray F32A 20 ex_o sl_e ex_b f1 (f32_of_Z 3) = Ret ([[0; 1; 0]; [1; 1; 0]; [2; 1; 0]; [2; 2; 0]; [2; 2; 1]]%Z, None).
Proof.
  split; [vm_compute; reflexivity|]. split; [fin|]. split.
  - unfold real. rewrite f1_real. closed_float (f32_of_Z 3). rewrite V. lra.
  - vm_compute. reflexivity.
Qed.
End Real.

(** Two rays into one grid. *)
Definition ex_cloud : matrix := mkMatrix 2 2 [f32_of_Z 3; f0; f32_of_Z 2; f0].
Lemma ex_rays : cast_rays 20 [f0; f0] ex_cloud (mkBounds [f0; f0] [f0; f0]) f1 f0 =
  Ret ([[0; 0]; [1; 0]], [[3; 0]; [2; 0]]).
Proof. vm_compute. reflexivity. Qed.
