(** Playing a recording round and round: the map settles. *)
From Coq Require Import ZArith List Bool Reals Lra Lia Permutation.
From Flocq Require Import Core BinarySingleNaN.
From Verif Require Import Base F32 FloatFacts Arith Geom NdArray GridMap RayCaster NoiseModel Kitti Spec SpecMap SpecNoise SpecKitti ConverterProofs BoundsProofs CloudProofs NdProofs GridProofs ExpandProofs MapProofs NoiseProofs KittiProofs ScanProofs Viz SpecViz VizProofs ProgramProofs LiveProofs CornerProofs RoundError SpecOdds ForgetProofs MainProofs Examples.
Open Scope Z_scope.

(** ** Evidence is monotone *)
Lemma fadd_inf : forall s (h : f32), is_finite h = true -> fadd (B754_infinity s) h = B754_infinity s.
Proof. intros s [sh|sh| |sh mh eh bh] F; try discriminate F; reflexivity. Qed.
Lemma fadd_any : forall x h : f32, is_nan x = false -> is_finite h = true -> is_nan (fadd x h) = false.
Proof.
  intros x h Nx Fh. destruct (is_finite x) eqn:Fx; [apply (fadd_ext x h Fx Fh)|].
  destruct x as [s|s| |s mx ex bx]; try discriminate. now rewrite fadd_inf.
Qed.
Lemma fadd_mono : forall x y h : f32, is_finite h = true -> fle x y -> fle (fadd x h) (fadd y h).
Proof.
  intros x y h Fh L. apply fle_iff in L. destruct L as (Nx & Ny & L). apply fle_iff.
  split; [now apply fadd_any|]. split; [now apply fadd_any|]. pose proof bp128_pos as P.
  destruct (is_finite x) eqn:Fx, (is_finite y) eqn:Fy.
  - destruct (fadd_ext x h Fx Fh) as [_ ->]. destruct (fadd_ext y h Fy Fh) as [_ ->]. apply clamp_le, rnd_le. rewrite !ext_finite in L by assumption. lra.
  - destruct y as [s|s| |s my ey yb]; try discriminate. rewrite fadd_inf by assumption.
    destruct s; [|apply ext_bounds]. exfalso. cbn [ext] in L. rewrite ext_finite in L by assumption. pose proof (B2R_lt_emax x) as B. apply Rabs_def2 in B. lra.
  - destruct x as [s|s| |s mx ex xb]; try discriminate. rewrite fadd_inf by assumption.
    destruct s; [apply ext_bounds|]. exfalso. cbn [ext] in L. rewrite ext_finite in L by assumption. pose proof (B2R_lt_emax y) as B. apply Rabs_def2 in B. lra.
  - destruct x as [s|s| |s mx ex xb]; try discriminate. destruct y as [s'|s'| |s' my ey yb]; try discriminate. now rewrite !fadd_inf.
Qed.
Lemma observe_mono : forall m e x y, addable m -> fle x y -> fle (observe m x e) (observe m y e).
Proof.
  intros m e x y (Fh & Fm & N1 & N2) L. destruct e as [[|]|]; [..|assumption]; cbn [observe evidence].
  - pose proof (fadd_mono x y _ Fh L) as A. apply fle_iff in A. destruct A as (Na & Nb & A). apply fle_iff.
    split; [now apply fmin_nan|]. split; [now apply fmin_nan|]. rewrite !fmin_ext by assumption. now apply Rle_min_compat_r.
  - pose proof (fadd_mono x y _ Fm L) as A. apply fle_iff in A. destruct A as (Na & Nb & A). apply fle_iff.
    split; [now apply fmax_nan|]. split; [now apply fmax_nan|]. rewrite !fmax_ext by assumption. now apply Rle_max_compat_r.
Qed.
Lemma fle_refl' : forall x, is_nan x = false -> fle x x.
Proof. intros x N. apply fle_iff. repeat split; try assumption. lra. Qed.
Lemma fle_total : forall x y, is_nan x = false -> is_nan y = false -> fle x y \/ fle y x.
Proof. intros x y Nx Ny. rewrite !fle_iff. destruct (Rle_or_lt (ext x) (ext y)); [left|right]; repeat split; auto; lra. Qed.

(** ** There are fewer than 2^32 values *)
Lemma not_NoDup : forall l : list Z, ~ NoDup l -> exists a l1 l2 l3, l = l1 ++ a :: l2 ++ a :: l3.
Proof.
  induction l as [|a l IH]; intro N; [elim N; constructor|]. destruct (in_dec Z.eq_dec a l) as [I|I].
  - apply in_split in I. destruct I as (l2 & l3 & ->). now exists a, [], l2, l3.
  - destruct IH as (b & l1 & l2 & l3 & ->); [intro K; apply N; now constructor|]. now exists b, (a :: l1), l2, l3.
Qed.
Lemma repeated : forall (f : nat -> f32) N, N = Z.to_nat (2 ^ 32) -> exists i j, (i < j <= N)%nat /\ f i = f j.
Proof.
  intros f N EN. set (l := map (fun i => bits_of_f32 (f i)) (seq 0 (S N))).
  assert (ND : ~ NoDup l).
  { intro ND. assert (I : incl l (map Z.of_nat (seq 0 N))).
    { intros z Hz. unfold l in Hz. apply in_map_iff in Hz. destruct Hz as (i & <- & _). pose proof (bits_range (f i)) as B.
      apply in_map_iff. exists (Z.to_nat (bits_of_f32 (f i))). split; [apply Z2Nat.id; apply B|]. apply in_seq. rewrite EN. split; [apply Nat.le_0_l|]. cbn [Nat.add]. apply Z2Nat.inj_lt; lia. }
    pose proof (NoDup_incl_length ND I) as L. unfold l in L. rewrite !map_length, !seq_length in L. lia. }
  apply not_NoDup in ND. destruct ND as (a & l1 & l2 & l3 & E).
  assert (A : forall i, (i <= N)%nat -> nth_error l i = Some (bits_of_f32 (f i))).
  { intros i Hi. unfold l. apply (map_nth_error (fun i => bits_of_f32 (f i))). rewrite (nth_error_nth' _ 0%nat) by (rewrite seq_length; lia). now rewrite seq_nth by lia. }
  assert (LL : length l = S N) by (unfold l; now rewrite map_length, seq_length).
  assert (L3 : (length l1 + (1 + (length l2 + (1 + length l3))) = S N)%nat).
  { rewrite <- LL, E, app_length. cbn [length]. rewrite app_length. cbn [length]. lia. }
  exists (length l1), (length l1 + 1 + length l2)%nat. split; [lia|].
  assert (E1 : nth_error l (length l1) = Some a) by (rewrite E, nth_error_app2, Nat.sub_diag by lia; reflexivity).
  assert (E2 : nth_error l (length l1 + 1 + length l2) = Some a).
  { rewrite E, nth_error_app2 by lia. replace (length l1 + 1 + length l2 - length l1)%nat with (S (length l2)) by lia. cbn [nth_error].
    rewrite nth_error_app2, Nat.sub_diag by lia. reflexivity. }
  rewrite A in E1 by lia. rewrite A in E2 by lia. rewrite <- (bits_back (f (length l1))), <- (bits_back (f (length l1 + 1 + length l2)%nat)). congruence.
Qed.

(** ** A sequence driven by the same evidence in every round *)
Section Rounds.
Variables (m : lidar) (v : nat -> f32) (q A K : nat).
Hypothesis AD : addable m.
Hypothesis Q : (0 < q)%nat.
Hypothesis NN : forall k, (A <= k <= K)%nat -> is_nan (v k) = false.
Hypothesis LS : forall k, (A <= k)%nat -> (k + q < K)%nat -> exists e, v (S k) = observe m (v k) e /\ v (S (k + q)) = observe m (v (k + q)%nat) e.
Lemma forward : forall (R : f32 -> f32 -> Prop), (forall e x y, R x y -> R (observe m x e) (observe m y e)) ->
  forall a k, (A <= a <= k)%nat -> (k + q <= K)%nat -> R (v a) (v (a + q)%nat) -> R (v k) (v (k + q)%nat).
Proof.
  intros R H a k [Ha Hk] HK Ra. revert HK. induction Hk as [|k Hk IH]; intro HK; [assumption|].
  destruct (LS k ltac:(lia) ltac:(lia)) as (e & -> & E). replace (S k + q)%nat with (S (k + q)) by lia. rewrite E. apply H. apply IH. lia.
Qed.
Lemma climb : forall (R : f32 -> f32 -> Prop), (forall x, is_nan x = false -> R x x) -> (forall x y z, R x y -> R y z -> R x z) ->
  (forall k, (A <= k)%nat -> (k + q <= K)%nat -> R (v k) (v (k + q)%nat)) ->
  forall n a, (A <= a)%nat -> (a + q * n <= K)%nat -> R (v a) (v (a + q * n)%nat).
Proof.
  intros R R0 RT H n. induction n as [|n IH]; intros a Ha HK.
  - rewrite Nat.mul_0_r, Nat.add_0_r. apply R0, NN. lia.
  - rewrite Nat.mul_succ_r in *. replace (a + (q * n + q))%nat with (a + q + q * n)%nat by lia.
    apply RT with (v (a + q)%nat); [apply H; lia|]. apply IH; lia.
Qed.
Lemma settled_from : forall (R : f32 -> f32 -> Prop), (forall x, is_nan x = false -> R x x) -> (forall x y z, R x y -> R y z -> R x z) ->
  (forall e x y, R x y -> R (observe m x e) (observe m y e)) ->
  (A + q <= K -> R (v A) (v (A + q)%nat))%nat ->
  forall k N, N = Z.to_nat (2 ^ 32) -> (A + q * N <= k)%nat -> (k + q <= K)%nat -> R (v k) (v (k + q)%nat) /\ R (v (k + q)%nat) (v k).
Proof.
  intros R R0 RT RO RA k N EN Hk HK.
  assert (UP : forall j, (A <= j)%nat -> (j + q <= K)%nat -> R (v j) (v (j + q)%nat)).
  { intros j Hj HjK. apply (forward R RO A j); [lia|lia|]. apply RA. lia. }
  destruct (repeated (fun i => v (k - q * (N - i))%nat) N EN) as (i & j & [Hij HjN] & E).
  set (a := (k - q * (N - i))%nat) in *. assert (Ea : (k - q * (N - j) = a + q * (j - i))%nat).
  { unfold a. assert (q * (N - i) <= q * N)%nat by (apply Nat.mul_le_mono_l; lia). assert (q * (N - i) = q * (N - j) + q * (j - i))%nat by nia. lia. }
  cbv beta in E. rewrite Ea in E.
  assert (HN : (q * (N - i) <= q * N)%nat) by (apply Nat.mul_le_mono_l; lia).
  assert (Ha : (A <= a <= k)%nat) by (unfold a; clear - HN Hk; generalize dependent (q * (N - i))%nat; intros; lia).
  assert (Hb : (a + q * (j - i) <= k)%nat) by (rewrite <- Ea; apply Nat.le_sub_l).
  assert (Hn : (q * (j - i) = q + q * (j - i - 1))%nat) by (replace (j - i)%nat with (S (j - i - 1)) at 1 by lia; rewrite Nat.mul_succ_r; lia).
  clearbody a.
  split; [apply UP; lia|].
  apply (forward (fun x y => R y x) ltac:(intros e x y H; now apply RO) a k); [lia|lia|].
  rewrite E. replace (a + q * (j - i))%nat with (a + q + q * (j - i - 1))%nat by lia. apply (climb R R0 RT UP); lia.
Qed.
Lemma rounds_settle : forall k N, N = Z.to_nat (2 ^ 32) -> (A + q * N <= k)%nat -> (k + q <= K)%nat -> fle (v k) (v (k + q)%nat) /\ fle (v (k + q)%nat) (v k).
Proof.
  intros k N EN Hk HK. destruct (fle_total (v A) (v (A + q)%nat)) as [H|H]; [apply NN; lia|apply NN; lia|..].
  - apply (settled_from fle fle_refl' fle_trans (fun e x y => observe_mono m e x y AD) ltac:(auto) k N EN Hk HK).
  - destruct (settled_from (fun x y => fle y x) fle_refl' ltac:(intros x y z G1 G2; exact (fle_trans _ _ _ G2 G1)) (fun e x y => observe_mono m e y x AD) ltac:(auto) k N EN Hk HK). auto.
Qed.
End Rounds.

(** ** One integration into a map that has room *)
Lemma track_refl : forall o, only_tracking o o.
Proof. intro o. unfold only_tracking. auto. Qed.
Lemma track_trans : forall a b c, only_tracking a b -> only_tracking b c -> only_tracking a c.
Proof. unfold only_tracking. intros a b c (? & ? & ? & ? & ?) (? & ? & ? & ? & ?). repeat split; congruence. Qed.
Lemma track_wf : forall d r t o o' cb, only_tracking o o' -> wf d r t (om_grid o) cb -> wf d r t (om_grid o') cb.
Proof. intros d r t o o' cb (_ & T1 & T2 & T3 & T4) W. apply (wf_same d r t (om_grid o)); try congruence. rewrite <- T1. apply (wf_storage _ _ _ _ _ W). Qed.
Lemma track_get : forall o o' c, only_tracking o o' -> gm_get (om_grid o) c = gm_get (om_grid o') c.
Proof. intros o o' c (_ & T & _). unfold gm_get. now rewrite T. Qed.

Lemma request_zero : forall d r cloud db, res_ok r -> matrix_ok cloud -> request_ok d r (pc_bounds cloud) -> bounds_discretized (pc_bounds cloud) r true = Ret db ->
  sub_cells (cb_empty d) (cb_from_bounds db r).
Proof.
  intros d r cloud db HR MO RQ E. destruct (disc_near d r _ db HR RQ E) as ((D1 & D2 & _) & [S1 S2] & _).
  rewrite (from_bounds_map d) by assumption. destruct (pc_bounds_spec cloud MO) as ((L1 & _) & [I1 I2] & _).
  destruct RQ as ((L1' & _) & _). assert (Nd : nrows cloud = d) by congruence. rewrite Nd in *. unfold sub_cells, cb_empty, cell_origin, origin in *. cbn [cmin cmax].
  split.
  - clear - HR S1 I1. revert d I1. induction S1 as [|x y l l' H S1 IH]; intros d I1; inversion I1 as [|? z ? l2 Hz I2 E1 E2]; destruct d; try discriminate; cbn [map repeat] in *; constructor.
    + injection E2 as Ez El. subst z. rewrite <- (wc_zero r f0 HR eq_refl). apply wc_mono; [assumption|]. now apply (fle_trans _ y).
    + injection E2 as Ez El. rewrite El in I2. now apply IH.
  - clear - HR S2 I2. revert d I2. induction S2 as [|x y l l' H S2 IH]; intros d I2; inversion I2 as [|z ? l2 ? Hz I3 E1 E2]; destruct d; try discriminate; cbn [map repeat] in *; constructor.
    + injection E1 as Ez El. subst z. rewrite <- (wc_zero r f0 HR eq_refl). apply wc_mono; [assumption|]. now apply (fle_trans _ x).
    + injection E1 as Ez El. rewrite El in I3. now apply IH.
Qed.

Lemma sub_trans : forall a b c, sub_cells a b -> sub_cells b c -> sub_cells a c.
Proof. intros a b c [A1 A2] [B1 B2]. split; eapply Zle_trans2; eassumption. Qed.

(** The cells that a cloud asks for lie in the box [cb]. *)
Definition has_room (r : f32) (cb : cell_bounds) (cloud : matrix) : Prop :=
  forall db, bounds_discretized (pc_bounds cloud) r true = Ret db -> sub_cells (cb_from_bounds db r) cb.

Lemma integrate_room : forall d r t fuel of oo o cb origin cloud o', map_range d r t -> wf d r t (om_grid o) cb -> is_order of -> is_order oo ->
  matrix_ok cloud -> request_ok d r (pc_bounds cloud) -> om_integrate fuel of oo o origin cloud = Ret o' ->
  om_model o' = om_model o /\ exists cb', wf d r t (om_grid o') cb' /\ has_room r cb' cloud /\ sub_cells cb cb'.
Proof.
  intros d r t fuel of oo o cb origin cloud o' M W Hf Ho MO RQ E. destruct (om_integrate_spec _ _ _ _ _ _ _ E) as [E' Em]. split; [assumption|].
  destruct (integrate_spec _ _ _ _ _ _ _ _ Hf Ho (wf_storage _ _ _ _ _ W) E') as (g1 & free & occ & E3 & _ & _ & S' & Sh & B & R' & T' & _).
  destruct (expand_step d r t _ cb _ f0 M W RQ) as (db & g'' & cb' & u & Edb & E4 & W1 & _ & _ & _ & SB & SC & _).
  assert (g'' = g1) by congruence. subst g''. exists cb'. split; [|split].
  - apply (wf_same d r t g1); try assumption.
    + rewrite R', (wf_resolution _ _ _ _ _ W). symmetry. apply (wf_resolution _ _ _ _ _ W1).
    + rewrite T', (wf_tile_size _ _ _ _ _ W). symmetry. apply (wf_tile_size _ _ _ _ _ W1).
  - intros db' Edb'. assert (db' = db) by congruence. now subst.
  - destruct SC as [-> |SC]; [|assumption]. apply (sub_trans _ (cb_from_bounds db r)); [|assumption]. eapply request_zero; try eassumption. apply M.
Qed.

Lemma integrate_lockstep : forall d r t m cb o1 o2 fuel1 of1 oo1 fuel2 of2 oo2 origin cloud o1' o2', map_range d r t ->
  wf d r t (om_grid o1) cb -> wf d r t (om_grid o2) cb -> om_model o1 = m -> om_model o2 = m ->
  is_order of1 -> is_order oo1 -> is_order of2 -> is_order oo2 -> request_ok d r (pc_bounds cloud) -> has_room r cb cloud ->
  om_integrate fuel1 of1 oo1 o1 origin cloud = Ret o1' -> om_integrate fuel2 of2 oo2 o2 origin cloud = Ret o2' ->
  wf d r t (om_grid o1') cb /\ wf d r t (om_grid o2') cb /\
  forall c v1 v2, cells_in_isize c -> gm_get (om_grid o1) c = Ret v1 -> gm_get (om_grid o2) c = Ret v2 ->
    exists e, gm_get (om_grid o1') c = Ret (observe m v1 e) /\ gm_get (om_grid o2') c = Ret (observe m v2 e).
Proof.
  intros d r t m cb o1 o2 fuel1 of1 oo1 fuel2 of2 oo2 origin cloud o1' o2' M W1 W2 M1 M2 Hf1 Ho1 Hf2 Ho2 RQ HR E1 E2.
  destruct (om_integrate_spec _ _ _ _ _ _ _ E1) as [I1 _]. destruct (om_integrate_spec _ _ _ _ _ _ _ E2) as [I2 _]. rewrite M1 in I1. rewrite M2 in I2.
  destruct (expand_step d r t _ cb _ f0 M W1 RQ) as (db & _ & _ & _ & Edb & _).
  pose proof (expand_covered d r t _ cb _ f0 db M W1 RQ Edb (HR db Edb)) as X1. pose proof (expand_covered d r t _ cb _ f0 db M W2 RQ Edb (HR db Edb)) as X2.
  destruct (integrate_spec _ _ _ _ _ _ _ _ Hf1 Ho1 (wf_storage _ _ _ _ _ W1) I1) as (g1 & free & occ & Y1 & C1 & S1 & S1' & Sh1 & B1 & R1 & T1 & _ & O1 & F1 & N1 & _).
  destruct (integrate_spec _ _ _ _ _ _ _ _ Hf2 Ho2 (wf_storage _ _ _ _ _ W2) I2) as (g2 & free2 & occ2 & Y2 & C2 & S2 & S2' & Sh2 & B2 & R2 & T2 & _ & O2 & F2 & N2 & _).
  rewrite X1 in Y1. injection Y1 as <-. rewrite X2 in Y2. injection Y2 as <-.
  assert (EQ : free2 = free /\ occ2 = occ).
  { rewrite (wf_bounds _ _ _ _ _ W1), (wf_resolution _ _ _ _ _ W1) in C1. rewrite (wf_bounds _ _ _ _ _ W2), (wf_resolution _ _ _ _ _ W2) in C2.
    destruct (Nat.le_ge_cases fuel1 fuel2) as [L|L].
    - rewrite (rays_fuel fuel1 fuel2) in C2 by (try assumption; congruence). rewrite C1 in C2. injection C2 as <- <-. auto.
    - rewrite (rays_fuel fuel2 fuel1) in C1 by (try assumption; congruence). rewrite C1 in C2. injection C2 as <- <-. auto. }
  destruct EQ as [-> ->]. split; [now apply (wf_same d r t (om_grid o1))|]. split; [now apply (wf_same d r t (om_grid o2))|].
  intros c v1 v2 CI G1 G2.
  destruct (in_dec (list_eq_dec Z.eq_dec) c occ) as [Io|Io]; [|destruct (in_dec (list_eq_dec Z.eq_dec) c free) as [If|If]].
  - destruct (O1 c Io) as (x1 & Q1 & Q1'). destruct (O2 c Io) as (x2 & Q2 & Q2'). exists (Some true). cbn [observe evidence]. split; congruence.
  - destruct (F1 c If) as (x1 & Q1 & Q1'). destruct (F2 c If) as (x2 & Q2 & Q2'). exists (Some false). cbn [observe evidence]. split; congruence.
  - exists None. cbn [observe]. rewrite N1, N2 by assumption. auto.
Qed.

(** ** The sequence of maps *)
Lemma in_range_dec : forall n c, in_range n c \/ ~ in_range n c.
Proof.
  unfold in_range. intros n c. assert (H : forall x y : Z, {0 <= x < y} + {~ 0 <= x < y}) by (intros x y; destruct (Z_le_dec 0 x), (Z_lt_dec x y); [left; lia|right; lia..]).
  revert c. induction n as [|y n IH]; intros [|x c].
  - left. constructor.
  - right. intro K. inversion K.
  - right. intro K. inversion K.
  - destruct (H x y); [destruct (IH c); [left; now constructor|]|]; right; intro K; inversion K; contradiction.
Qed.
Section Replay.
Variables (d : nat) (r : f32) (t : Z) (m : lidar) (scans : list (point * matrix)) (X : nat -> occ_map) (K : nat).
Hypothesis M : map_range d r t.
Hypothesis AD : addable m.
Hypothesis OK : Forall (fun s => matrix_ok (snd s) /\ request_ok d r (pc_bounds (snd s))) scans.
Hypothesis RP : replayed d r t m scans X K.
Let q := length scans.

Lemma replay_facts : forall k, (k <= K)%nat -> om_model (X k) = m /\ all_values (fun v => is_nan v = false) (om_grid (X k)) /\
  exists cb, wf d r t (om_grid (X k)) cb /\ forall j origin cloud, (j < k)%nat -> nth_error scans (j mod q) = Some (origin, cloud) -> has_room r cb cloud.
Proof.
  destruct RP as [(o0 & E0 & T0) ST]. induction k as [|k IH]; intro Hk.
  - assert (P : integrated d r t m o0) by now apply int_new.
    destruct (integrated_values (fun v => is_nan v = false) d r t m o0) as [Mo V]; try assumption; [reflexivity|..].
    { intros v _. apply fmin_nan. apply AD. } { intros v _. apply fmax_nan. apply AD. }
    pose proof T0 as (TM & TD & _). split; [congruence|]. split; [unfold all_values in *; now rewrite <- TD|].
    exists (cb_empty d). split; [|intros; lia]. apply (track_wf d r t o0); [assumption|].
    apply (scanned_nothing d r t m o0 []); [assumption|now apply scanned_new|reflexivity].
  - destruct (IH ltac:(lia)) as (Mo & V & cb & W & RM). destruct (ST k ltac:(lia)) as (origin & cloud & fuel & of & oo & o & o' & N & Hf & Ho & T1 & E & T2).
    pose proof (nth_error_In _ _ N) as In1. destruct (proj1 (Forall_forall _ _) OK _ In1) as [MO RQ]. cbn [snd] in MO, RQ.
    pose proof (track_wf _ _ _ _ _ _ T1 W) as W1. destruct (integrate_room d r t fuel of oo o cb origin cloud o' M W1 Hf Ho MO RQ E) as (Mo' & cb' & W' & HR & SC).
    pose proof T1 as (TM1 & TD1 & _). pose proof T2 as (TM2 & TD2 & _). split; [congruence|]. split.
    + unfold all_values. rewrite <- TD2. destruct (om_integrate_spec _ _ _ _ _ _ _ E) as [E' _].
      apply (integrate_values (fun v => is_nan v = false) fuel of oo (om_model o) (om_grid o) origin cloud (om_grid o')); [reflexivity|..| |exact E'].
      * intros v _. apply fmin_nan. rewrite <- TM1, Mo. apply AD.
      * intros v _. apply fmax_nan. rewrite <- TM1, Mo. apply AD.
      * unfold all_values in *. now rewrite <- TD1.
    + exists cb'. split; [now apply (track_wf d r t o')|]. intros j oj cj Hj Nj. destruct (Nat.eq_dec j k) as [-> |Ne].
      * fold q in N. rewrite N in Nj. injection Nj as <- <-. exact HR.
      * intros db Edb. apply (sub_trans _ cb); [|assumption]. exact (RM j oj cj ltac:(lia) Nj db Edb).
Qed.

Lemma replay_box : (q <= K)%nat -> q <> O -> exists cb, (forall k, (q <= k <= K)%nat -> wf d r t (om_grid (X k)) cb) /\
  forall j origin cloud, nth_error scans (j mod q) = Some (origin, cloud) -> has_room r cb cloud.
Proof.
  intros HK Hq. destruct (replay_facts q HK) as (_ & _ & cb & W & RM). exists cb.
  assert (RM' : forall j origin cloud, nth_error scans (j mod q) = Some (origin, cloud) -> has_room r cb cloud).
  { intros j origin cloud N. apply (RM (j mod q)%nat origin); [now apply Nat.mod_upper_bound|]. now rewrite Nat.mod_mod. }
  split; [|assumption]. intros k [H1 H2]. revert H2. induction H1 as [|k H1 IH]; intro H2; [assumption|].
  specialize (IH ltac:(lia)). destruct (replay_facts k ltac:(lia)) as (Mo & _).
  destruct RP as [_ ST]. destruct (ST k ltac:(lia)) as (origin & cloud & fuel & of & oo & o & o' & N & Hf & Ho & T1 & E & T2).
  pose proof (nth_error_In _ _ N) as In1. destruct (proj1 (Forall_forall _ _) OK _ In1) as [MO RQ]. cbn [snd] in MO, RQ. pose proof (track_wf _ _ _ _ _ _ T1 IH) as W1.
  assert (Mo1 : om_model o = m) by (destruct T1; congruence).
  destruct (integrate_lockstep d r t m cb o o fuel of oo fuel of oo origin cloud o' o' M W1 W1 Mo1 Mo1 Hf Ho Hf Ho RQ (RM' k origin cloud N) E E) as (W' & _).
  now apply (track_wf d r t o').
Qed.

Lemma replay_settles : forall k, q <> O -> (Z.of_nat q * (2 ^ 32 + 1) <= Z.of_nat k) -> (k + q <= K)%nat -> reads_same (X k) (X (k + q)%nat).
Proof.
  intros k Hq Hk HK. remember (Z.to_nat (2 ^ 32)) as N eqn:EN.
  assert (Hk' : (q + q * N <= k)%nat). { apply Nat2Z.inj_le. rewrite Nat2Z.inj_add, Nat2Z.inj_mul, EN, Z2Nat.id by lia. lia. }
  clear Hk. destruct (replay_box ltac:(lia) Hq) as (cb & W & RM).
  pose proof (W k ltac:(lia)) as Wk. pose proof (W (k + q)%nat ltac:(lia)) as Wk'.
  destruct (replay_facts k ltac:(lia)) as (Mk & _). destruct (replay_facts (k + q) ltac:(lia)) as (Mk' & _).
  assert (Sh : nd_shape (gm_data (om_grid (X k))) = nd_shape (gm_data (om_grid (X (k + q)%nat)))) by (rewrite (wf_shape _ _ _ _ _ Wk), (wf_shape _ _ _ _ _ Wk'); reflexivity).
  split; [rewrite (wf_bounds _ _ _ _ _ Wk), (wf_bounds _ _ _ _ _ Wk'); reflexivity|]. split; [assumption|]. intros c CI.
  destruct (in_range_dec (nd_shape (gm_data (om_grid (X k)))) c) as [IR|IR].
  2: { pose proof (proj2 (gm_get_iff _ c (wf_storage _ _ _ _ _ Wk) CI) IR) as P1. rewrite Sh in IR.
    pose proof (proj2 (gm_get_iff _ c (wf_storage _ _ _ _ _ Wk') CI) IR) as P2. unfold om_occupied, occupied. rewrite P1, P2. split; [reflexivity|]. intros v E. discriminate E. }
  destruct (gm_get (om_grid (X k)) c) as [v0| |] eqn:G0.
  - assert (ex : forall j, (q <= j <= K)%nat -> exists v, gm_get (om_grid (X j)) c = Ret v).
    { intros j Hj. pose proof (W j Hj) as Wj. apply gm_get_iff; [apply (wf_storage _ _ _ _ _ Wj)|assumption|].
      rewrite (wf_shape _ _ _ _ _ Wj), <- (wf_shape _ _ _ _ _ Wk). assumption. }
    set (v := fun j => match gm_get (om_grid (X j)) c with Ret x => x | _ => f0 end).
    assert (Gv : forall j, (q <= j <= K)%nat -> gm_get (om_grid (X j)) c = Ret (v j)) by (intros j Hj; destruct (ex j Hj) as [x E]; unfold v; rewrite E; reflexivity).
    destruct (rounds_settle m v q q K AD ltac:(lia)) with (k := k) (N := N) as [L1 L2]; try assumption.
    + intros j Hj. destruct (replay_facts j ltac:(lia)) as (_ & V & _). exact (get_value _ _ _ _ V (Gv j Hj)).
    + intros j Hj HjK. destruct RP as [_ ST].
      destruct (ST j ltac:(lia)) as (origin & cloud & fuel & of & oo & o & o' & Nj & Hf & Ho & T1 & E & T2).
      destruct (ST (j + q)%nat ltac:(lia)) as (origin' & cloud' & fuel' & of' & oo' & x & x' & Nj' & Hf' & Ho' & T1' & E' & T2').
      fold q in Nj, Nj'. replace (j + q)%nat with (j + 1 * q)%nat in Nj' by lia. rewrite Nat.mod_add, Nj in Nj' by assumption. injection Nj' as <- <-.
      pose proof (nth_error_In _ _ Nj) as In1. destruct (proj1 (Forall_forall _ _) OK _ In1) as [MO RQ]. cbn [snd] in MO, RQ.
      destruct (replay_facts j ltac:(lia)) as (Mj & _). destruct (replay_facts (j + q) ltac:(lia)) as (Mj' & _).
      destruct (integrate_lockstep d r t m cb o x fuel of oo fuel' of' oo' origin cloud o' x' M (track_wf _ _ _ _ _ _ T1 (W j ltac:(lia))) (track_wf _ _ _ _ _ _ T1' (W (j + q)%nat ltac:(lia)))
        ltac:(destruct T1; congruence) ltac:(destruct T1'; congruence) Hf Ho Hf' Ho' RQ (RM j origin cloud Nj) E E') as (_ & _ & LK).
      destruct (LK c (v j) (v (j + q)%nat) CI) as (e & Q1 & Q2).
      * rewrite <- (track_get _ _ c T1). apply Gv. lia.
      * rewrite <- (track_get _ _ c T1'). apply Gv. lia.
      * exists e. rewrite (track_get _ _ c T2) in Q1. rewrite (track_get _ _ c T2') in Q2. pose proof (Gv (S j) ltac:(lia)) as Q3. pose proof (Gv (S (j + q)) ltac:(lia)) as Q4. split; congruence.
    + assert (FE : feqb (v k) (v (k + q)%nat) = true).
      { apply fle_iff in L1, L2. apply feqb_iff. split; [apply L1|]. split; [apply L1|]. lra. }
      assert (E0 : v k = v0) by (unfold v; now rewrite G0). rewrite E0 in FE, L1, L2. pose proof (Gv (k + q)%nat ltac:(lia)) as Gk. split.
      * unfold om_occupied, occupied. rewrite G0, Gk, Mk, Mk'. cbn [obind]. f_equal. apply feqb_iff in FE. destruct FE as (Na & Nb & FE).
        destruct (is_nan (occupied_threshold_logodds m)) eqn:NT; [unfold fltb; destruct (occupied_threshold_logodds m); try discriminate NT; reflexivity|].
        destruct (fltb (occupied_threshold_logodds m) v0) eqn:T; symmetry.
        -- eapply fltb_fle_trans; eassumption.
        -- eapply fltb_fle_false; eassumption.
      * intros v' E. assert (v' = v0) by congruence. subst v'. eauto.
  - destruct (proj1 (gm_get_iff _ c (wf_storage _ _ _ _ _ Wk) CI) IR) as [x E]. congruence.
  - destruct (proj1 (gm_get_iff _ c (wf_storage _ _ _ _ _ Wk) CI) IR) as [x E]. congruence.
Qed.
End Replay.

(** ** The program *)
Lemma run_app : forall rec s tr s' tr' s'', run rec s tr s' -> run rec s' tr' s'' -> run rec s (tr ++ tr') s''.
Proof.
  intros rec s tr s' tr' s'' H1 H2. induction H2 as [|tr' s1 th ev s2 H2 IH St]; [now rewrite app_nil_r|]. rewrite app_assoc. now apply (run_step rec s _ s1 th).
Qed.
Lemma reaches_run : forall rec d m r t tr s tr' s', reaches rec d m r t tr s -> run rec s tr' s' -> reaches rec d m r t (tr ++ tr') s'.
Proof. intros rec d m r t tr s tr' s' (o & E & H) H'. exists o. split; [assumption|]. now apply (run_app rec _ tr s). Qed.

Lemma run_integrate_model : forall rec s th ev s', Inv rec s -> cur s' <> WPanicked -> step rec s th ev s' -> om_model (grid s') = om_model (grid s).
Proof.
  intros rec s th ev s' I NP H. destruct H as [ev s' H|newer w older ev pc s' Ew H]; [destruct H; reflexivity|].
  pose proof (worker_newest _ _ _ _ _ _ _ _ I Ew H) as ->. unfold cur in NP. fields. cbn [app w_pc at_pc] in *.
  destruct H; fields; try reflexivity; try congruence; try (match goal with E : om_integrate _ _ _ _ _ _ = Ret _ |- _ => now destruct (om_integrate_spec _ _ _ _ _ _ _ E) end).
Qed.

Section Program.
Variables (rec : recording) (d : nat) (r : f32) (t : Z) (m : lidar).
Hypothesis RO : recording_ok d r t rec.
Hypothesis HM : limit_near (max_range m) r.
Let scans := combine (origins rec) (clouds rec).

Lemma replay_extend : forall tr s X, reaches rec d m r t tr s -> replayed d r t m scans X (integrations tr) -> only_tracking (X (integrations tr)) (grid s) ->
  forall tr' s', run rec s tr' s' -> exists X', replayed d r t m scans X' (integrations (tr ++ tr')) /\ (forall k, (k <= integrations tr)%nat -> X' k = X k) /\
    only_tracking (X' (integrations (tr ++ tr'))) (grid s').
Proof.
  intros tr s X Re RP TX tr' s' H. induction H as [|tr' s1 th ev s2 H IH St]; [exists X; rewrite app_nil_r; auto|].
  destruct IH as (X1 & RP1 & EX & T1). pose proof (reaches_run _ _ _ _ _ _ _ _ _ Re H) as Re1.
  destruct (prog_run rec d r t m _ s1 RO HM Re1) as [I P].
  pose proof (p_alive _ _ _ _ _ _ (prog_step _ _ _ _ _ _ _ _ _ _ RO HM I P St)) as NP.
  pose proof (run_integrate_model _ _ _ _ _ I NP St) as EM. rewrite app_assoc, (integrations_app (tr ++ tr')).
  destruct (step_grid rec s1 th ev s2 I NP St) as [(_ & IZ & G1 & G2 & G3 & G4)|(w & older & fuel & of & oo & Ew & Ep & Hf & Ho & HI & ->)].
  - rewrite IZ, Nat.add_0_r. exists X1. split; [assumption|]. split; [assumption|]. apply (track_trans _ (grid s1)); [assumption|].
    unfold only_tracking. rewrite EM, G1, G2, G3, G4. auto.
  - cbn [integrations]. set (n := integrations (tr ++ tr')) in *.
    exists (fun k => if (k <=? n)%nat then X1 k else grid s2).
    assert (Hn : (n + 1 <=? n)%nat = false) by (apply Nat.leb_gt; lia).
    split; [|split].
    + destruct RP1 as [Z0 ST]. split; [exact Z0|]. intros k Hk. destruct (Nat.eq_dec k n) as [-> |Ne].
      * rewrite Nat.leb_refl. replace (S n) with (n + 1)%nat by lia. rewrite Hn.
        destruct P as [_ (L & cb & SC & STd & LI & _ & _) _].
        assert (Pe : pend s1 = [(w_origin w, w_cloud w)]) by (unfold pend; now rewrite Ew, Ep).
        destruct (cyclic_run rec d m r t _ s1 n (w_origin w) (w_cloud w) (proj1 RO) Re1) as [C1 C2].
        { rewrite STd, Pe, nth_error_app2 by lia. fold n in LI. rewrite LI, Nat.sub_diag. reflexivity. }
        exists (w_origin w), (w_cloud w), fuel, of, oo, (grid s1), (grid s2).
        split; [|split; [assumption|split; [assumption|split; [assumption|split; [assumption|apply track_refl]]]]].
        assert (LS : length scans = length (clouds rec)) by (unfold scans; rewrite combine_length, (proj1 (proj1 RO)); apply Nat.min_id).
        rewrite LS. now apply nth_error_combine.
      * rewrite (proj2 (Nat.leb_le k n)), (proj2 (Nat.leb_le (S k) n)) by lia. apply ST. lia.
    + intros k Hk. rewrite (proj2 (Nat.leb_le k n)); [now apply EX|]. unfold n. rewrite integrations_app. lia.
    + rewrite Hn. apply track_refl.
Qed.
Lemma replay_run : forall tr s, reaches rec d m r t tr s -> exists X, replayed d r t m scans X (integrations tr) /\ only_tracking (X (integrations tr)) (grid s).
Proof.
  intros tr s (o & E & H).
  destruct (replay_extend [] (initial o) (fun _ => o)) with (tr' := tr) (s' := s) as (X & R1 & _ & R2); try assumption.
  - exists o. split; [assumption|constructor].
  - split; [|cbn [integrations]; intros; lia]. exists o. split; [assumption|apply track_refl].
  - apply track_refl.
  - exists X. auto.
Qed.

Lemma program_settles : forall tr s tr' s', addable m -> reaches rec d m r t tr s -> run rec s tr' s' ->
  Z.of_nat (length (clouds rec)) * (2 ^ 32 + 1) <= Z.of_nat (integrations tr) -> integrations tr' = length (clouds rec) -> reads_same (grid s) (grid s').
Proof.
  intros tr s tr' s' AD Re H HK Hq. destruct (replay_run tr s Re) as (X & RP & TX).
  destruct (replay_extend tr s X Re RP TX tr' s' H) as (X' & RP' & EX & TX'). rewrite integrations_app, Hq in RP', TX'.
  assert (LS : length scans = length (clouds rec)) by (unfold scans; rewrite combine_length, (proj1 (proj1 RO)); apply Nat.min_id).
  pose proof RO as (RC & M & _ & _ & FO).
  destruct (replay_settles d r t m scans X' (integrations tr + length scans) M AD) with (k := integrations tr) as (B & Sh & R1).
  - eapply Forall_impl; [|exact FO]. intros [o c] F. cbn [fst snd] in *. split; [apply F|]. exact (frame_request d r o c (proj1 (proj2 M)) F).
  - now rewrite LS.
  - rewrite LS. destruct RC as [_ N]. intro K. apply N. now destruct (clouds rec).
  - now rewrite LS.
  - apply le_n.
  - rewrite LS, EX in * by lia. pose proof TX as (TM & TD & TB & _). pose proof TX' as (TM' & TD' & TB' & _).
    split; [congruence|]. split; [congruence|]. intros c CI. destruct (R1 c CI) as [R2 R3].
    assert (OC : forall a b, only_tracking a b -> om_occupied a c = om_occupied b c).
    { intros a b (Q1 & Q2 & _). unfold om_occupied, occupied, gm_get. now rewrite Q1, Q2. }
    rewrite <- (OC _ _ TX), <- (OC _ _ TX'). split; [assumption|]. intros v. rewrite <- (track_get _ _ c TX), <- (track_get _ _ c TX'). apply R3.
Qed.

Lemma display_settles : forall tr s tr' s', addable m -> first_lowest rec -> fltb (occupied_threshold_logodds m) f0 = false -> reaches rec d m r t tr s -> run rec s tr' s' ->
  Z.of_nat (length (clouds rec)) * (2 ^ 32 + 1) <= Z.of_nat (integrations tr) -> integrations tr' = length (clouds rec) ->
  render s = RUnlockGrid -> render s' = RUnlockGrid -> forall c p, cells_in_isize c -> In (c, p) (tracked s) <-> In (c, p) (tracked s').
Proof.
  intros tr s tr' s' AD FL TH Re H HK Hq RU RU' c p CI.
  pose proof (program_settles tr s tr' s' AD Re H HK Hq) as (B & Sh & RS). destruct (RS c CI) as [RO1 _].
  pose proof (reaches_run _ _ _ _ _ _ _ _ _ Re H) as Re'. pose proof RO as (RC & M & _ & _ & FO).
  assert (RQ : Forall (fun c => request_ok d r (pc_bounds c)) (clouds rec)).
  { apply Forall_forall. intros x Hx. apply In_nth_error in Hx. destruct Hx as [i Hi].
    destruct (nth_error (origins rec) i) as [o|] eqn:Eo.
    - rewrite Forall_forall in FO. exact (frame_request d r o x (proj1 (proj2 M)) (FO _ (combine_nth rec i o x Eo Hi))).
    - exfalso. apply nth_error_None in Eo. rewrite (proj1 RC) in Eo. apply nth_error_None in Eo. congruence. }
  assert (D : forall tr s, reaches rec d m r t tr s -> render s = RUnlockGrid -> (forall p, In (c, p) (tracked s) <-> om_occupied (grid s) c = Ret true /\ p = gm_point_from_cell (om_grid (grid s)) c) /\ gm_resolution (om_grid (grid s)) = r).
  { intros tr0 s0 R0 U0. destruct (program_safe rec d r t m tr0 s0 RO HM R0) as (NP & _). pose proof (corner_static rec d r t m tr0 s0 RO HM FL R0) as CK.
    destruct (display_right rec d r t m tr0 s0 RC M RQ TH R0 CK NP) as (_ & P1 & P2 & P3). destruct (P3 U0) as [Er Ec]. split.
    - intro p0. specialize (P2 c CI ltac:(rewrite Er; auto) ltac:(rewrite Ec; auto)). split.
      + intro K. split; [apply P2; eauto|now apply P1].
      + intros [K ->]. apply P2 in K. destruct K as [p1 K]. pose proof (P1 _ _ K). now subst p1.
    - destruct (prog_run rec d r t m tr0 s0 RO HM R0) as [_ [_ (L & cb & _ & _ & _ & W & _) _]]. apply (wf_resolution _ _ _ _ _ W). }
  destruct (D tr s Re RU) as [D1 G1]. destruct (D (tr ++ tr') s' Re' RU') as [D2 G2]. rewrite D1, D2, RO1. unfold gm_point_from_cell. now rewrite B, G1, G2.
Qed.
End Program.

(** ** Every number of integrations is passed with the display just brought up to date *)
Fixpoint consumptions (tr : list event) : nat :=
  match tr with [] => 0 | EConsume _ :: tr' => S (consumptions tr') | _ :: tr' => consumptions tr' end.
Lemma consumptions_app : forall a b, consumptions (a ++ b) = (consumptions a + consumptions b)%nat.
Proof. induction a as [|e a IH]; intros b; [reflexivity|]. destruct e; cbn [app consumptions]; rewrite IH; reflexivity. Qed.
Lemma protocol_counts : forall tr st, protocol tr st -> consumptions tr = (integrations tr + match st with Consumed | Started => 1 | _ => 0 end)%nat.
Proof.
  intros tr st H. induction H; rewrite ?consumptions_app, ?integrations_app; cbn [consumptions integrations]; lia.
Qed.
Lemma step_consumes : forall rec s th ev s', step rec s th ev s' -> consumptions ev = 0%nat \/ (consumptions ev = 1%nat /\ render s' = RUnlockGrid).
Proof. intros rec s th ev s' H. destruct H as [ev s' H|newer w older ev pc s' Ew H]; destruct H; fields; cbn [consumptions]; auto. Qed.
Lemma passes : forall (f : nat -> nat), f O = O -> (forall n, f (S n) <= S (f n))%nat -> forall n k, (k < f n)%nat -> exists j, (j < n)%nat /\ f j = k /\ f (S j) = S k.
Proof.
  intros f F0 F1 n. induction n as [|n IH]; intros k Hk; [lia|]. destruct (Nat.lt_ge_cases k (f n)) as [L|L].
  - destruct (IH k L) as (j & Hj & E). exists j. split; [lia|assumption].
  - specialize (F1 n). exists n. lia.
Qed.
Lemma until_run : forall rec o st th ev n k, execution rec o st th ev -> (n <= k)%nat -> exists tr, run rec (st n) tr (st k) /\ observed_until ev k = observed_until ev n ++ tr.
Proof.
  intros rec o st th ev n k X H. induction H as [|k H (tr & R & E)]; [exists []; split; [constructor|now rewrite app_nil_r]|].
  exists (tr ++ ev k). split; [apply (run_step rec _ tr (st k) (th k)); [assumption|apply (ex_step _ _ _ _ _ X)]|]. cbn [observed_until]. now rewrite E, app_assoc.
Qed.
Lemma all_passed : forall rec d r t m o k n, (0 < n)%nat -> recording_ok d r t rec -> limit_near (max_range m) r -> om_new d m r t = Ret o ->
  exists tr s tr' s', reaches rec d m r t tr s /\ run rec s tr' s' /\ integrations tr = k /\ integrations tr' = n /\
    render s = RUnlockGrid /\ render s' = RUnlockGrid.
Proof.
  intros rec d r t m o k num Hnum RO HM E. destruct (fair_exists rec d r t m o RO HM E) as (st & th & ev & X & Fa).
  set (f := fun n => consumptions (observed_until ev n)).
  assert (F1 : forall n, (f (S n) <= S (f n))%nat /\ (f (S n) = S (f n) -> render (st (S n)) = RUnlockGrid)).
  { intro n. unfold f. cbn [observed_until]. rewrite consumptions_app. destruct (step_consumes _ _ _ _ _ (ex_step _ _ _ _ _ X n)) as [-> |[-> R]]; split; lia || auto. }
  assert (PC : forall n, let e := match stage_of (st n) with Consumed | Started => 1 | _ => 0 end%nat in f n = (integrations (observed_until ev n) + e)%nat).
  { intro n. apply protocol_counts. apply (protocol_run rec d m r t); [apply RO|]. now apply (exec_reaches _ _ _ _ _ o st th). }
  assert (G : forall j, exists n, integrations (observed_until ev n) = j /\ render (st n) = RUnlockGrid).
  { intro j. destruct (live rec d r t m o st th ev RO HM E X Fa (S j)) as [n Hn]. pose proof (PC n) as Pn. cbv zeta in Pn.
    destruct (passes f eq_refl (fun n => proj1 (F1 n)) n j ltac:(lia)) as (i & _ & Ei & Ei'). exists (S i).
    pose proof (proj2 (F1 i) ltac:(lia)) as Ru. split; [|assumption].
    destruct (exec_inv rec d r t m o st th ev RO HM E X (S i)) as [I _]. pose proof (i_phase _ _ I) as P. pose proof (PC (S i)) as Pi. cbv zeta in Pi.
    unfold stage_of in Pi. rewrite Ru in *. unfold cur in *. destruct (workers (st (S i))) as [|w ws]; [|destruct (w_pc w); try discriminate P]; lia. }
  destruct (G k) as (n1 & C1 & R1). destruct (G (k + num)%nat) as (n2 & C2 & R2).
  assert (L : (n1 <= n2)%nat).
  { destruct (Nat.le_gt_cases n1 n2) as [L|L]; [assumption|]. pose proof (until_mono ev n2 n1 ltac:(lia)) as Q. rewrite C1, C2 in Q. lia. }
  destruct (until_run rec o st th ev n1 n2 X L) as (tr & R & Eo). exists (observed_until ev n1), (st n1), tr, (st n2).
  split; [now apply (exec_reaches _ _ _ _ _ o st th)|]. split; [assumption|]. split; [assumption|]. split; [|auto].
  rewrite Eo, integrations_app, C1 in C2. lia.
Qed.

(** ** With the default model *)
Lemma default_limit : limit_near DEFAULT_MAX_RANGE DEFAULT_RESOLUTION.
Proof.
  unfold limit_near, DEFAULT_MAX_RANGE, DEFAULT_RESOLUTION. right.
  closed_float (f32_lit 60 1). closed_float (f32_lit 1 10). split; [vm_compute; reflexivity|]. unfold real. rewrite V, V0. lra.
Qed.
Lemma finite_not_nan : forall x : f32, finite x -> is_nan x = false.
Proof. intros [sx|sx| |sx mx ex bx] F; reflexivity || discriminate F. Qed.
Lemma default_settles : forall f rec o tr s tr' s', ln_accurate f -> om_default 3 f = Ret o -> recording_ok 3 DEFAULT_RESOLUTION DEFAULT_TILE_SIZE rec ->
  run rec (initial o) tr s -> run rec s tr' s' ->
  Z.of_nat (length (clouds rec)) * (2 ^ 32 + 1) <= Z.of_nat (integrations tr) -> integrations tr' = length (clouds rec) ->
  reads_same (grid s) (grid s') /\
  (first_lowest rec -> render s = RUnlockGrid -> render s' = RUnlockGrid -> forall c p, cells_in_isize c -> In (c, p) (tracked s) <-> In (c, p) (tracked s')).
Proof.
  intros f rec o tr s tr' s' A E RO H H' K Hq. destruct (default_start f o E) as (m & Em & En).
  destruct (default_values f A) as (m' & Em' & N & MR). rewrite Em in Em'. injection Em' as <-.
  destruct (default_bounds m N) as (MO & _). pose proof default_limit as HM. rewrite <- MR in HM.
  assert (AD : addable m).
  { inversion_clear MO as [|a l [F1 _] M1]. inversion_clear M1 as [|a l [F2 _] M2]. inversion_clear M2 as [|a l [F3 _] M3]. inversion_clear M3 as [|a l [F4 _] M4].
    split; [assumption|]. split; [assumption|]. split; apply finite_not_nan; assumption. }
  assert (Re : reaches rec 3 m DEFAULT_RESOLUTION DEFAULT_TILE_SIZE tr s) by (exists o; auto). split.
  - exact (program_settles rec 3 _ _ m RO HM tr s tr' s' AD Re H' K Hq).
  - intros FL U U'. refine (display_settles rec 3 _ _ m RO HM tr s tr' s' AD FL _ Re H' K Hq U U').
    destruct N as (F & _ & _ & _ & _ & T). rewrite !Forall_cons_iff in F. destruct F as (_ & _ & _ & _ & Ft & _).
    unfold fltb. rewrite Bltb_correct; [|exact Ft|reflexivity]. apply Rlt_bool_false. unfold real in T. rewrite T. cbn. lra.
Qed.
