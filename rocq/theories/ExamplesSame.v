(** Examples for f32 rays away from corners. *)
From Coq Require Import ZArith List Bool Reals Lra Lia.
From Flocq Require Import Core BinarySingleNaN.
From Verif Require Import Base F32 FloatFacts Arith Geom RayCaster Spec SpecBack ConverterProofs GridProofs CastProofs Examples ExamplesRay ExamplesShift ExamplesBack BackProofs SameProofs.
Open Scope R_scope.

(** From (0, 0, 1/4) to (4, 1, 5/4). *)
Definition sm_o : point := [f0; f0; f32_lit 1 4].
Definition sm_e : point := [f32_lit 4 1; f1; f32_lit 5 4].
Definition sm_b : point := [f0; f0; f0].
Lemma quarter : forall x n, steps (-2) x = Some n -> finite x /\ real x = IZR n / 4.
Proof. intros x n H. destruct (steps_ok (-2) x n H) as [F E]. split; [exact F|]. rewrite E. change (bpow radix2 (-2)) with (/ 4). reflexivity. Qed.
Lemma sm_values : Forall2 (fun x v => finite x /\ real x = v) sm_o [0; 0; 1 / 4] /\ Forall2 (fun x v => finite x /\ real x = v) sm_e [4; 1; 5 / 4] /\
  Forall2 (fun x v => finite x /\ real x = v) sm_b [0; 0; 0] /\ finite f1 /\ real f1 = 1.
Proof.
  assert (Z0 : finite f0 /\ real f0 = 0) by (split; reflexivity).
  assert (O1 : finite f1 /\ real f1 = 1) by (destruct (quarter f1 4 ltac:(vm_compute; reflexivity)) as [F E]; split; [exact F|rewrite E; lra]).
  assert (Q : finite (f32_lit 1 4) /\ real (f32_lit 1 4) = 1 / 4) by exact (quarter (f32_lit 1 4) 1 ltac:(vm_compute; reflexivity)).
  assert (Q5 : finite (f32_lit 5 4) /\ real (f32_lit 5 4) = 5 / 4) by exact (quarter (f32_lit 5 4) 5 ltac:(vm_compute; reflexivity)).
  assert (Q4 : finite (f32_lit 4 1) /\ real (f32_lit 4 1) = 4) by (destruct (quarter (f32_lit 4 1) 16 ltac:(vm_compute; reflexivity)) as [F E]; split; [exact F|rewrite E; lra]).
  split; [|split; [|split; [|exact O1]]]; repeat apply Forall2_cons; try apply Forall2_nil; assumption.
Qed.
Lemma values_reals : forall p l, Forall2 (fun x v => finite x /\ real x = v) p l -> map real p = l.
Proof. induction 1 as [|x v p l [_ E] _ IH]; cbn; congruence. Qed.
Lemma values_within : forall p l n, (5 <= n)%Z -> Forall2 (fun x v => finite x /\ real x = v) p l -> Forall (fun v => Rabs v <= 5) l -> Forall (within_cells n f1) p.
Proof.
  intros p l n N. apply IZR_le in N. assert (R1 : real f1 = 1) by exact (proj2 (proj2 (proj2 (proj2 sm_values)))).
  induction 1 as [|x v p l [F E] _ IH]; intro A; constructor; apply Forall_cons_iff in A; destruct A as [A B]; [|exact (IH B)]. split; [exact F|]. rewrite R1, E. lra.
Qed.
Lemma sm_short : ray_short f1 sm_o sm_e sm_b.
Proof.
  destruct sm_values as (O & E & B & F1 & R1).
  assert (A : forall n, (5 <= n)%Z -> Forall (within_cells n f1) sm_o /\ Forall (within_cells n f1) sm_e /\ Forall (within_cells n f1) sm_b).
  { intros n N. split; [|split]; [apply (values_within _ _ n N O)|apply (values_within _ _ n N E)|apply (values_within _ _ n N B)]; repeat apply Forall_cons; try apply Forall_nil; apply Rabs_le; lra. }
  destruct (A (2 ^ 20)%Z ltac:(lia)) as (A1 & A2 & A3). destruct (A (2 ^ 15)%Z ltac:(lia)) as (B1 & B2 & B3).
  apply values_reals in O, E.
  assert (O2 : real f0 = 0) by exact (f_equal (fun l => nth 0 l 0) O). assert (O3 : real (f32_lit 1 4) = 1 / 4) by exact (f_equal (fun l => nth 2 l 0) O).
  assert (E1 : real (f32_lit 4 1) = 4) by exact (f_equal (fun l => nth 0 l 0) E). assert (E2 : real f1 = 1) by exact R1. assert (E3 : real (f32_lit 5 4) = 5 / 4) by exact (f_equal (fun l => nth 2 l 0) E).
  split; [|split; [exact B1|split; [exact B2|split; [exact B3|]]]].
  - apply range_by; try assumption; [lra|]. unfold sm_o, sm_e.
    repeat apply Forall2_cons; try apply Forall2_nil; right; rewrite ?O2, ?O3, ?E1, ?E2, ?E3; rewrite Rabs_left; lra.
  - unfold sm_o, sm_e. repeat apply Forall2_cons; try apply Forall2_nil; rewrite R1, ?O2, ?O3, ?E1, ?E2, ?E3; rewrite Rabs_left; lra.
Qed.
Lemma sm_off : off_borders (/ 16) [0; 0; 0] 1 [0; 0; 1 / 4] /\ off_borders (/ 16) [0; 0; 0] 1 [4; 1; 5 / 4].
Proof.
  split; intros i k Hi; rewrite Rmult_1_r; destruct i as [|[|[|i]]]; [..|cbn in Hi; lia| | | |cbn in Hi; lia]; cbn [nth].
  1,2: match goal with |- _ <= Rabs ?x => replace x with (- / 2 - IZR k) by lra end; apply (off_by _ _ (-1)); lra.
  - match goal with |- _ <= Rabs ?x => replace x with (- / 4 - IZR k) by lra end. apply (off_by _ _ (-1)); lra.
  - match goal with |- _ <= Rabs ?x => replace x with (7 / 2 - IZR k) by lra end. apply (off_by _ _ 3); lra.
  - match goal with |- _ <= Rabs ?x => replace x with (/ 2 - IZR k) by lra end. apply (off_by _ _ 0); lra.
  - match goal with |- _ <= Rabs ?x => replace x with (3 / 4 - IZR k) by lra end. apply (off_by _ _ 0); lra.
Qed.
Lemma no_whole : forall k n, IZR n < IZR k < IZR (n + 1) -> False.
Proof. intros k n [A B]. apply lt_IZR in A, B. lia. Qed.
Lemma only_whole : forall k n, IZR (n - 1) < IZR k < IZR (n + 1) -> k = n.
Proof. intros k n [A B]. apply lt_IZR in A, B. lia. Qed.
Lemma sm_away : no_corner_near (/ 16) [0; 0; 0] 1 [0; 0; 1 / 4] [4; 1; 5 / 4].
Proof.
  assert (XY : forall u k l, 0 <= u <= 1 -> Rabs (0 + u * (4 - 0) - (0 + (IZR k + / 2) * 1)) <= / 16 * 1 -> Rabs (0 + u * (1 - 0) - (0 + (IZR l + / 2) * 1)) <= / 16 * 1 -> False).
  { intros u k l U A B. apply Rabs_le_inv in A, B. assert (l = 0%Z) by (apply only_whole; cbn; lra). subst l. apply (no_whole k 1); cbn; lra. }
  assert (XZ : forall u k l, 0 <= u <= 1 -> Rabs (0 + u * (4 - 0) - (0 + (IZR k + / 2) * 1)) <= / 16 * 1 -> Rabs (1 / 4 + u * (5 / 4 - 1 / 4) - (0 + (IZR l + / 2) * 1)) <= / 16 * 1 -> False).
  { intros u k l U A B. apply Rabs_le_inv in A, B. assert (l = 0%Z) by (apply only_whole; cbn; lra). subst l. apply (no_whole k 0); cbn; lra. }
  assert (YZ : forall u k l, 0 <= u <= 1 -> Rabs (0 + u * (1 - 0) - (0 + (IZR k + / 2) * 1)) <= / 16 * 1 -> Rabs (1 / 4 + u * (5 / 4 - 1 / 4) - (0 + (IZR l + / 2) * 1)) <= / 16 * 1 -> False).
  { intros u k l U A B. apply Rabs_le_inv in A, B. assert (l = 0%Z) by (apply only_whole; cbn; lra). subst l. apply (no_whole k (-1)); cbn; lra. }
  intros u i j k l Hu Hi Hj N _ _. destruct i as [|[|[|i]]], j as [|[|[|j]]]; cbn [length] in *; try lia; unfold seg; cbn [map2 nth]; intros A B;
    first [exact (XY u k l Hu A B)|exact (XY u l k Hu B A)|exact (XZ u k l Hu A B)|exact (XZ u l k Hu B A)|exact (YZ u k l Hu A B)|exact (YZ u l k Hu B A)].
Qed.

Lemma sm_case : ray_short f1 sm_o sm_e sm_b /\ off_borders (/ 16) (map real sm_b) (real f1) (map real sm_o) /\ off_borders (/ 16) (map real sm_b) (real f1) (map real sm_e) /\
  no_corner_near (/ 16) (map real sm_b) (real f1) (map real sm_o) (map real sm_e) /\
  cast_ray F32A 20 sm_o sm_e sm_b f1 f0 = Ret ([[0; 0; 0]; [1; 0; 0]; [1; 0; 1]; [2; 0; 1]; [2; 1; 1]; [3; 1; 1]], Some [4; 1; 1])%Z.
Proof.
  split; [exact sm_short|]. destruct sm_values as (O & E & B & _ & R1). rewrite (values_reals _ _ O), (values_reals _ _ E), (values_reals _ _ B), R1.
  split; [exact (proj1 sm_off)|]. split; [exact (proj2 sm_off)|]. split; [exact sm_away|]. vm_compute. reflexivity.
Qed.
Lemma sm_back : ray_short f1 sm_o sm_e sm_b /\ end_clear (/ 16) f1 sm_o sm_e sm_b /\ end_clear (/ 16) f1 sm_e sm_o sm_b /\
  no_corner_near (/ 16) (map real sm_b) (real f1) (map real sm_o) (map real sm_e) /\
  cast_ray F32A 20 sm_o sm_e sm_b f1 f0 = Ret ([[0; 0; 0]; [1; 0; 0]; [1; 0; 1]; [2; 0; 1]; [2; 1; 1]; [3; 1; 1]], Some [4; 1; 1])%Z.
Proof.
  destruct sm_case as (A & B & C & D & E). split; [exact A|]. split; [exact (off_clear 3 sm_o sm_e sm_b f1 eq_refl C)|]. split; [exact (off_clear 3 sm_e sm_o sm_b f1 eq_refl B)|]. exact (conj D E).
Qed.

(** Near a corner the f32 ray may be another one than the exact ray: otherwise there and back would agree in f32 as well. *)
Lemma bk_differs : exists (o e b : point) r, Forall finite o /\ Forall finite e /\ Forall finite b /\ real r = 1 /\
  off_borders (/ 16) (map real b) (real r) (map real o) /\ off_borders (/ 16) (map real b) (real r) (map real e) /\ no_corner (map real b) (real r) (map real o) (map real e) /\
  exists fuel path path' ec, cast_ray F32A fuel o e b r f0 = Ret (path, Some ec) /\
    cast_ray RealA fuel (map Fin (map real o)) (map Fin (map real e)) (map Fin (map real b)) (Fin (real r)) (Fin 0) = Ret (path', Some ec) /\ path <> path'.
Proof.
  assert (R1 : real f1 = 1) by exact (proj2 (proj2 (proj2 (proj2 sm_values)))).
  destruct bk_reals as [RO RE].
  assert (OFF : off_borders (/ 16) [0; 0] 1 [0; 0]). { intros i k Hi. rewrite Rmult_1_r. destruct i as [|[|i]]; [..|cbn in Hi; lia]; cbn [nth]; match goal with |- _ <= Rabs ?x => replace x with (- / 2 - IZR k) by lra end; apply (off_by _ _ (-1)); lra. }
  assert (OFE : off_borders (/ 16) [0; 0] 1 [3; 12582911 / 4194304]).
  { intros i k Hi. rewrite Rmult_1_r. destruct i as [|[|i]]; [..|cbn in Hi; lia]; cbn [nth].
    - match goal with |- _ <= Rabs ?x => replace x with (5 / 2 - IZR k) by lra end; apply (off_by _ _ 2); lra.
    - match goal with |- _ <= Rabs ?x => replace x with (12582911 / 4194304 - / 2 - IZR k) by lra end; apply (off_by _ _ 2); lra. }
  pose proof bk_close as NC. rewrite RO, RE in NC.
  assert (N0 : nearest_cell [0; 0] 1 [0; 0] = [0; 0]%Z) by exact (at_whole [0; 0]%Z).
  assert (N3 : nearest_cell [0; 0] 1 [3; 12582911 / 4194304] = [3; 3]%Z). { unfold nearest_cell. cbn [map2]. rewrite (Znearest_imp _ _ 3), (Znearest_imp _ _ 3); [reflexivity| |]; apply Rabs_lt; lra. }
  destruct (back 2 [0; 0] [3; 12582911 / 4194304] [0; 0] 1 (or_introl eq_refl) eq_refl eq_refl eq_refl ltac:(lra)) with (fuel := 20%nat) (m := 0) as (p & q & C & C' & EQ).
  { apply (off_inside (/ 16)); [lra|lra|exact OFE]. } { apply (off_inside (/ 16)); [lra|lra|exact OFF]. } { exact NC. }
  { rewrite N0. repeat constructor; discriminate. } { rewrite N3. repeat constructor; discriminate. } { lra. } { rewrite N0, N3. vm_compute. discriminate. }
  rewrite N3, N0 in *.
  assert (F1 : cast_ray F32A 20 bk_o bk_e bk_o f1 f0 = Ret ([[0; 0]; [1; 0]; [1; 1]; [1; 2]; [2; 2]; [3; 2]], Some [3; 3])%Z) by (vm_compute; reflexivity).
  assert (F2 : cast_ray F32A 20 bk_e bk_o bk_o f1 f0 = Ret ([[3; 3]; [3; 2]; [2; 2]; [2; 1]; [1; 1]; [1; 0]], Some [0; 0])%Z) by (vm_compute; reflexivity).
  assert (FO : Forall finite bk_o) by (repeat constructor). assert (FE : Forall finite bk_e) by (repeat constructor).
  destruct (list_eq_dec (list_eq_dec Z.eq_dec) p [[0; 0]; [1; 0]; [1; 1]; [1; 2]; [2; 2]; [3; 2]]%Z) as [P|P].
  - exists bk_e, bk_o, bk_o, f1. do 3 (split; [assumption|]). split; [exact R1|]. rewrite RO, RE, R1. split; [exact OFE|]. split; [exact OFF|]. split.
    { intros u i j Hu Hi Hj N D1 D2. rewrite (seg_back [0; 0] [3; 12582911 / 4194304] u eq_refl). apply NC; try assumption; [lra|now apply not_eq_sym|now apply not_eq_sym]. }
    exists 20%nat, [[3; 3]; [3; 2]; [2; 2]; [2; 1]; [1; 1]; [1; 0]]%Z, q, [0; 0]%Z. split; [exact F2|]. split; [exact C'|].
    intros <-. rewrite P in EQ. discriminate EQ.
  - exists bk_o, bk_e, bk_o, f1. do 3 (split; [assumption|]). split; [exact R1|]. rewrite RO, RE, R1. split; [exact OFF|]. split; [exact OFE|]. split; [exact NC|].
    exists 20%nat, [[0; 0]; [1; 0]; [1; 1]; [1; 2]; [2; 2]; [3; 2]]%Z, p, [3; 3]%Z. split; [exact F1|]. split; [exact C|]. intro E. now apply P.
Qed.

(** The same ray, limited to 11/4. *)
Definition sm_m : f32 := f32_lit 11 4.
Lemma sm_limit : limit_clear (/ 32) (11 / 4) [0; 0; 0] 1 [0; 0; 1 / 4] [4; 1; 5 / 4].
Proof.
  intros x u L Hu G. destruct x as [|k [|l [|n [|]]]]; try discriminate L. clear L.
  pose proof (G 0%nat ltac:(cbn; lia)) as G0. pose proof (G 1%nat ltac:(cbn; lia)) as G1. pose proof (G 2%nat ltac:(cbn; lia)) as G2. clear G.
  unfold seg in *. cbn [map2 nth] in *. apply Rabs_le_inv in G0, G1, G2.
  assert (K : (0 <= k)%Z) by (apply Z.lt_succ_r; apply lt_IZR; rewrite succ_IZR; lra).
  assert (Hl : l = 0%Z \/ l = 1%Z). { assert (A : (0 <= l)%Z) by (apply Z.lt_succ_r; apply lt_IZR; rewrite succ_IZR; lra). assert (B : (l < 2)%Z) by (apply lt_IZR; lra). lia. }
  assert (Hn : n = 0%Z \/ n = 1%Z). { assert (A : (0 <= n)%Z) by (apply Z.lt_succ_r; apply lt_IZR; rewrite succ_IZR; lra). assert (B : (n < 2)%Z) by (apply lt_IZR; lra). lia. }
  unfold dist, cell_centre. cbn [map2 fold_right]. rewrite !Rmult_1_r.
  match goal with |- sqrt ?z + _ <= _ \/ _ => set (q := z) end.
  assert (Hl' : 0 <= IZR l * IZR l <= 1) by (destruct Hl as [-> | ->]; lra).
  assert (Hn' : 0 <= (IZR n - 1 / 4) * (IZR n - 1 / 4) <= 9 / 16) by (destruct Hn as [-> | ->]; lra).
  destruct (Z_le_gt_dec k 2) as [A|A].
  - left. assert (Q : q <= 12 / 5 * (12 / 5)). { assert (K2 : IZR k * IZR k <= 4) by (assert (Hk : k = 0%Z \/ k = 1%Z \/ k = 2%Z) by lia; destruct Hk as [-> | [-> | ->]]; lra). unfold q. lra. }
    assert (S : sqrt q <= 12 / 5) by (rewrite <- (sqrt_square (12 / 5)) by lra; now apply sqrt_le_1_alt). lra.
  - right. assert (Q : 3 * 3 <= q). { assert (K3 : 3 <= IZR k) by (apply IZR_le; lia). assert (9 <= IZR k * IZR k) by nra. unfold q. lra. }
    assert (S : 3 <= sqrt q) by (rewrite <- (sqrt_square 3) by lra; now apply sqrt_le_1_alt). lra.
Qed.
Lemma sm_limited : fltb f0 sm_m = true /\ finite sm_m /\ real sm_m <= 1048576 * real f1 /\
  limit_clear (/ 32) (real sm_m) (map real sm_b) (real f1) (map real sm_o) (map real sm_e) /\
  cast_ray F32A 20 sm_o sm_e sm_b f1 sm_m = Ret ([[0; 0; 0]; [1; 0; 0]; [1; 0; 1]; [2; 0; 1]; [2; 1; 1]], None)%Z.
Proof.
  destruct sm_values as (O & E & B & _ & R1). rewrite (values_reals _ _ O), (values_reals _ _ E), (values_reals _ _ B), R1.
  destruct (quarter sm_m 11 ltac:(vm_compute; reflexivity)) as [F V]. rewrite V.
  split; [vm_compute; reflexivity|]. split; [exact F|]. split; [lra|]. split; [exact sm_limit|]. vm_compute. reflexivity.
Qed.

(** A scan of two points: the ray to the first is cut, the ray to the second is complete. *)
Definition sm_p : point := [f32_lit 2 1; f0; f32_lit 1 4].
Definition sm_cloud : matrix := mkMatrix 3 2 (sm_e ++ sm_p).
Lemma sm_p_values : Forall2 (fun x v => finite x /\ real x = v) sm_p [2; 0; 1 / 4].
Proof.
  destruct sm_values as (O & _). assert (Q2 : finite (f32_lit 2 1) /\ real (f32_lit 2 1) = 2) by (destruct (quarter (f32_lit 2 1) 8 ltac:(vm_compute; reflexivity)) as [F E]; split; [exact F|rewrite E; lra]).
  repeat apply Forall2_cons; try apply Forall2_nil; [exact Q2|split; reflexivity|exact (quarter (f32_lit 1 4) 1 ltac:(vm_compute; reflexivity))].
Qed.
Lemma sm_p_clear : clear_ray sm_m f1 sm_b sm_o sm_p.
Proof.
  destruct sm_values as (O & _ & B & F1 & R1). pose proof sm_p_values as P.
  assert (A : forall n, (5 <= n)%Z -> Forall (within_cells n f1) sm_o /\ Forall (within_cells n f1) sm_p /\ Forall (within_cells n f1) sm_b).
  { intros n N. split; [|split]; [apply (values_within _ _ n N O)|apply (values_within _ _ n N P)|apply (values_within _ _ n N B)]; repeat apply Forall_cons; try apply Forall_nil; apply Rabs_le; lra. }
  destruct (A (2 ^ 20)%Z ltac:(lia)) as (A1 & A2 & A3). destruct (A (2 ^ 15)%Z ltac:(lia)) as (B1 & B2 & B3).
  apply values_reals in O, P, B. destruct (quarter sm_m 11 ltac:(vm_compute; reflexivity)) as [F V].
  assert (P1 : real (f32_lit 2 1) = 2) by exact (f_equal (fun l => nth 0 l 0) P). assert (P2 : real f0 = 0) by exact (f_equal (fun l => nth 0 l 0) O).
  split; [|rewrite O, P, B, R1, V; split; [exact (proj1 sm_off)|]].
  { split; [|split; [exact B1|split; [exact B2|split; [exact B3|]]]].
    - apply range_by; try assumption; [lra|]. unfold sm_o, sm_p. apply Forall2_cons; [right; rewrite P1, P2, Rabs_left; lra|]. repeat apply Forall2_cons; try apply Forall2_nil; left; reflexivity.
    - unfold sm_o, sm_p. rewrite R1. apply Forall2_cons; [rewrite P1, P2, Rabs_left; lra|]. repeat apply Forall2_cons; try apply Forall2_nil; rewrite Rminus_diag_eq by reflexivity; rewrite Rabs_R0; lra. }
  split; [|split].
  - intros i k Hi; rewrite Rmult_1_r; destruct i as [|[|[|i]]]; [..|cbn in Hi; lia]; cbn [nth].
    + match goal with |- _ <= Rabs ?x => replace x with (3 / 2 - IZR k) by lra end. apply (off_by _ _ 1); lra.
    + match goal with |- _ <= Rabs ?x => replace x with (- / 2 - IZR k) by lra end. apply (off_by _ _ (-1)); lra.
    + match goal with |- _ <= Rabs ?x => replace x with (- / 4 - IZR k) by lra end. apply (off_by _ _ (-1)); lra.
  - intros u i j k l Hu Hi Hj N D1 D2. exfalso. destruct i as [|[|[|i]]], j as [|[|[|j]]]; cbn [length nth] in *; try lia; lra.
  - intros x u L Hu G. destruct x as [|k [|l [|n [|]]]]; try discriminate L. clear L.
    pose proof (G 0%nat ltac:(cbn; lia)) as G0. pose proof (G 1%nat ltac:(cbn; lia)) as G1. pose proof (G 2%nat ltac:(cbn; lia)) as G2. clear G.
    unfold seg in *. cbn [map2 nth] in *. apply Rabs_le_inv in G0, G1, G2.
    assert (K : k = 0%Z \/ k = 1%Z \/ k = 2%Z). { assert (A4 : (0 <= k)%Z) by (apply Z.lt_succ_r; apply lt_IZR; rewrite succ_IZR; lra). assert (A5 : (k < 3)%Z) by (apply lt_IZR; lra). lia. }
    assert (l = 0%Z) by (apply only_whole; cbn; lra). assert (n = 0%Z) by (apply only_whole; cbn; lra). subst l n.
    unfold dist, cell_centre. cbn [map2 fold_right]. rewrite !Rmult_1_r. match goal with |- sqrt ?z + _ <= _ \/ _ => set (q := z) end.
    left. assert (Q : q <= 12 / 5 * (12 / 5)) by (unfold q; destruct K as [-> | [-> | ->]]; lra).
    assert (S : sqrt q <= 12 / 5) by (rewrite <- (sqrt_square (12 / 5)) by lra; now apply sqrt_le_1_alt). lra.
Qed.
Lemma sm_scan : fltb f0 sm_m = true /\ finite sm_m /\ real sm_m <= 1048576 * real f1 /\
  (forall p, In p (pc_points sm_cloud) -> length p = 3%nat /\ clear_ray sm_m f1 sm_b sm_o p) /\
  cast_rays 20 sm_o sm_cloud (mkBounds sm_b sm_e) f1 sm_m = Ret ([[0; 0; 0]; [1; 0; 0]; [1; 0; 1]; [2; 0; 1]; [2; 1; 1]], [[2; 0; 0]])%Z.
Proof.
  destruct sm_limited as (A & B & C & D & _). destruct sm_case as (S & O1 & O2 & NC & _).
  split; [exact A|]. split; [exact B|]. split; [exact C|]. split; [|vm_compute; reflexivity].
  assert (PT : pc_points sm_cloud = [sm_e; sm_p]) by reflexivity. rewrite PT.
  intros p [<-|[<-|[]]]; (split; [reflexivity|]); [|exact sm_p_clear]. split; [exact S|]. split; [exact O1|]. split; [exact O2|]. split; [exact NC|exact D].
Qed.
