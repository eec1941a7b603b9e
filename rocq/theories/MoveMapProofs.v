(** C89: maps of a scene that has been moved by whole cells. *)
From Coq Require Import ZArith List Bool Reals Lra Lia Sorting.Permutation.
From Flocq Require Import Core BinarySingleNaN.
From Verif Require Import Base F32 FloatFacts Arith Geom NdArray GridMap RayCaster NoiseModel Spec SpecMap SpecNoise SpecShift SpecMove ConverterProofs RayProofs CastProofs RaysProofs NdProofs NoiseProofs GridProofs ExpandProofs MapProofs ShiftProofs ShiftFloatProofs MoveFloatProofs ShiftMapProofs ShiftGrowProofs MoveProofs.
Open Scope Z_scope.

(** Growing does not change what a map says anywhere. *)
Lemma grow_value : forall d r t (g g1 : grid_map f32) cb b, map_range d r t -> wf d r t g cb -> request_ok d r b -> gm_expand_bounds g b f0 = Ret g1 ->
  exists cb1, wf d r t g1 cb1 /\ forall w x, world_value g cb f0 w x <-> world_value g1 cb1 f0 w x.
Proof.
  intros d r t g g1 cb b M W RQ E.
  destruct (expand_step d r t g cb b f0 M W RQ) as (db & x1 & cb1 & u & _ & X & W1 & _ & _ & _ & _ & _ & _ & _ & _ & Old & New & _). rewrite E in X. injection X as <-.
  exists cb1. split; [exact W1|]. intros w x. unfold world_value. destruct (in_box_dec cb w) as [B|B].
  - destruct (Old w B) as (B1 & y & G & G1). split; intros [H1 H2].
    + specialize (H1 B). split; [intros _; congruence|contradiction].
    + specialize (H1 B1). split; [intros _; congruence|contradiction].
  - destruct (in_box_dec cb1 w) as [B1|B1].
    + pose proof (New w B B1) as G. split; intros [H1 H2].
      * specialize (H2 B). subst x. split; [auto|contradiction].
      * specialize (H1 B1). split; [contradiction|]. congruence.
    + split; intros [H1 H2]; split; auto; contradiction.
Qed.

Lemma index_isize : forall d r t (g : grid_map f32) cb w, wf d r t g cb -> in_box cb w -> cells_in_isize (map2 Z.sub w (cmin cb)).
Proof.
  intros d r t g cb w W [B1 B2]. pose proof W as [_ _ (O1 & O2 & _) _ [N1 N2] _ _ _]. unfold KB in *. clear -B1 B2 N1 N2.
  destruct cb as [lo hi]. cbn [cmin cmax] in *. revert lo hi B1 B2 N1 N2. unfold cells_in_isize.
  induction w as [|x w IH]; intros lo hi B1 B2 N1 N2; [constructor|]. inversion B1; subst. inversion B2; subst. apply Forall_cons_iff in N1, N2. destruct N1 as [N1 N1'], N2 as [N2 N2'].
  cbn [map2]. constructor; [|eapply IH; eassumption]. unfold isize_min, isize_max. lia.
Qed.

Section Scan.
Context (d : nat) (r : f32) (t : Z) (fuel : nat) (of oo : iteration_order) (m : lidar) (g g1 g' : grid_map f32) (o : point) (cloud : matrix) (cb : cell_bounds) (free occ : list cell).
Hypothesis W1 : wf d r t g1 cb.
Hypothesis Ec : cast_rays fuel o cloud (gm_bounds g1) (gm_resolution g1) (max_range m) = Ret (free, occ).
Hypothesis Hocc : forall c, In c occ -> exists v, gm_get g1 c = Ret v /\ gm_get g' c = Ret (fmin (fadd v (hit_logodds m)) (max_logodds m)).
Hypothesis Hfree : forall c, In c free -> exists v, gm_get g1 c = Ret v /\ gm_get g' c = Ret (fmax (fadd v (miss_logodds m)) (min_logodds m)).
Hypothesis Hrest : forall c, cells_in_isize c -> ~ In c occ -> ~ In c free -> gm_get g' c = gm_get g1 c.

(** What the map says after the scan. *)
Lemma scan_value : forall w x, length w = d -> let c := map2 Z.sub w (cmin cb) in
  (In c occ -> (world_value g' cb f0 w x <-> exists v, world_value g1 cb f0 w v /\ x = fmin (fadd v (hit_logodds m)) (max_logodds m))) /\
  (In c free -> (world_value g' cb f0 w x <-> exists v, world_value g1 cb f0 w v /\ x = fmax (fadd v (miss_logodds m)) (min_logodds m))) /\
  (~ In c occ -> ~ In c free -> (world_value g' cb f0 w x <-> world_value g1 cb f0 w x)).
Proof.
  intros w x Lw c. destruct (cast_rays_isize _ _ _ _ _ _ _ _ Ec) as [If Io]. rewrite Forall_forall in If, Io.
  pose proof W1 as [_ _ (O1 & O2 & _) _ _ _ Ws St].
  assert (IN : forall v, cells_in_isize c -> gm_get g1 c = Ret v -> in_box cb w).
  { intros v Ic G. pose proof (gm_get_range g1 c v St Ic G) as R. rewrite Ws in R. apply box_range; [congruence|]. split; [unfold cell in *; lia|exact R]. }
  assert (HIT : forall f : f32 -> f32, cells_in_isize c -> (exists v, gm_get g1 c = Ret v /\ gm_get g' c = Ret (f v)) ->
    (world_value g' cb f0 w x <-> exists v, world_value g1 cb f0 w v /\ x = f v)).
  { intros f Ic (v & G & G'). pose proof (IN v Ic G) as B. unfold world_value. split.
    - intros [H _]. specialize (H B). fold c in H. rewrite G' in H. injection H as <-. exists v. split; [|reflexivity]. split; [auto|contradiction].
    - intros (v' & [H _] & ->). specialize (H B). fold c in H. rewrite G in H. injection H as <-. split; [auto|contradiction]. }
  split; [|split].
  - intro I. apply (HIT (fun v => fmin (fadd v (hit_logodds m)) (max_logodds m))); auto.
  - intro I. apply (HIT (fun v => fmax (fadd v (miss_logodds m)) (min_logodds m))); auto.
  - intros N1 N2. unfold world_value. split; intros [H1 H2]; (split; [|exact H2]); intro B; specialize (H1 B); fold c in H1 |- *;
    pose proof (Hrest c (index_isize d r t g1 cb w W1 B) N1 N2) as E; congruence.
Qed.
End Scan.

Lemma index_shift : forall (w K lo lo' : list Z), length w = length lo -> length lo = length lo' -> length K = length lo ->
  map2 Z.sub (shifted K w) lo' = shifted (map2 Z.add (map2 Z.sub lo lo') K) (map2 Z.sub w lo).
Proof.
  unfold shifted. induction w as [|x w IH]; intros [|k K] [|a lo] [|b lo'] L1 L2 L3; cbn in *; try discriminate; [reflexivity|]. f_equal; [lia|]. apply IH; lia.
Qed.

Lemma covers_same : forall d r t (g g' : grid_map f32) cb, covers_cells d r t g cb -> gm_resolution g' = gm_resolution g -> gm_tile_size g' = gm_tile_size g ->
  gm_bounds g' = gm_bounds g -> nd_shape (gm_data g') = nd_shape (gm_data g) -> storage_ok (gm_data g') -> covers_cells d r t g' cb.
Proof. intros d r t g g' cb [A B C D E F G H I] R T Bo S St. constructor; try assumption; congruence. Qed.

Lemma cells_nth : forall r K i, nth i (cells_of r K) 0%R = (IZR (nth i K 0%Z) * r)%R.
Proof. intros r K. unfold cells_of. induction K as [|k K IH]; intros [|i]; cbn [map nth]; try apply IH; ring. Qed.

(** Two corners on the grid. *)
Lemma corners_along : forall d r t q (g h : grid_map f32) cb cb' K, map_range d r t -> -60 <= q <= 30 -> even_units q r -> wf d r t g cb -> wf d r t h cb' ->
  near_zero q (bmin (gm_bounds g)) -> near_zero q (bmin (gm_bounds h)) -> length K = d ->
  let W := map2 Z.add (map2 Z.sub (cmin cb) (cmin cb')) K in length W = d /\
  forall i, (i < d)%nat -> (nth i (map real (bmin (gm_bounds h))) 0 = nth i (map real (bmin (gm_bounds g))) 0 + nth i (cells_of (real r) K) 0 - IZR (nth i W 0%Z) * real r)%R.
Proof.
  intros d r t q g h cb cb' K M Hq ER W W' N N' LK V. destruct (corner_units _ _ _ _ _ _ _ M W Hq ER N) as (_ & _ & X). destruct (corner_units _ _ _ _ _ _ _ M W' Hq ER N') as (_ & _ & X').
  pose proof W as [_ _ (O1 & _) _ _ _ _ _]. pose proof W' as [_ _ (O1' & _) _ _ _ _ _].
  assert (L1 : length (map2 Z.sub (cmin cb) (cmin cb')) = d) by (apply map2_len; assumption). assert (LV : length V = d) by (apply map2_len; assumption).
  split; [exact LV|]. intros i Hi. rewrite X, X' by exact Hi. rewrite cells_nth. unfold V.
  rewrite (nth_map2 Z.add _ _ i 0%Z 0%Z 0%Z), (nth_map2 Z.sub _ _ i 0%Z 0%Z 0%Z) by (unfold cell in *; lia). rewrite plus_IZR, minus_IZR. ring.
Qed.

Lemma step_elsewhere : forall d r t q K fuel of oo of' oo' m g h o cloud o' cloud' g' h', map_range d r t -> -60 <= q <= 30 -> even_units q r ->
  fltb f0 (max_range m) = false \/ (finite (max_range m) /\ (real (max_range m) <= IZR (2 ^ 21) * bpow radix2 q)%R) -> length K = d ->
  reachable d r t g -> reachable d r t h -> same_elsewhere d r t K g h -> Z.of_nat fuel <= 2 ^ 61 ->
  is_order of -> is_order oo -> is_order of' -> is_order oo' ->
  moved_scan (cells_of (real r) K) o cloud o' cloud' -> request_ok d r (pc_bounds cloud) -> request_ok d r (pc_bounds cloud') ->
  integrate_point_cloud fuel of oo m g o cloud = Ret g' -> integrate_point_cloud fuel of' oo' m h o' cloud' = Ret h' ->
  near_zero q (bmin (gm_bounds g')) -> near_zero q (bmin (gm_bounds h')) -> in_view q (bmin (gm_bounds g')) o cloud -> in_view q (bmin (gm_bounds h')) o' cloud' ->
  same_elsewhere d r t K g' h'.
Proof.
  intros d r t q K fuel of oo of' oo' m g h o cloud o' cloud' g' h' M Hq ER Hm LK RG RH SE Hf O1 O2 O3 O4 MS RQ RQ' I I' N N' V V'.
  destruct (wf_of_reachable d r t g M RG) as [cb W]. destruct (wf_of_reachable d r t h M RH) as [cbh Wh].
  destruct SE as (c1 & c2 & C1 & C2 & SE). assert (HR : res_ok r) by apply M.
  rewrite (covers_unique d r t g c1 cb HR C1 (wf_covers _ _ _ _ _ M W)) in SE. rewrite (covers_unique d r t h c2 cbh HR C2 (wf_covers _ _ _ _ _ M Wh)) in SE. clear c1 c2 C1 C2.
  destruct (integrate_spec _ _ _ _ _ _ _ _ O1 O2 (wf_storage _ _ _ _ _ W) I) as (g1 & free & occ & E1 & Ec & S1 & S' & Sh & B1 & R1 & T1 & _ & Hocc & Hfree & Hrest & _ & _).
  destruct (integrate_spec _ _ _ _ _ _ _ _ O3 O4 (wf_storage _ _ _ _ _ Wh) I') as (h1 & free' & occ' & E1' & Ec' & S1' & S2' & Sh' & B1' & R1' & T1' & _ & Hocc' & Hfree' & Hrest' & _ & _).
  rewrite B1 in *. rewrite B1' in *.
  destruct (grow_value d r t g g1 cb _ M W RQ E1) as (cb1 & W1 & V1). destruct (grow_value d r t h h1 cbh _ M Wh RQ' E1') as (cb2 & W2 & V2).
  destruct (corners_along d r t q g1 h1 cb1 cb2 K M Hq ER W1 W2 N N' LK) as [LV CA]. set (D := map2 Z.add (map2 Z.sub (cmin cb1) (cmin cb2)) K) in *.
  destruct (corner_units _ _ _ _ _ _ _ M W1 Hq ER N) as (L1 & U1 & _). destruct (corner_units _ _ _ _ _ _ _ M W2 Hq ER N') as (L2 & U2 & _).
  pose proof (scan_along d q o cloud o' cloud' (gm_bounds g1) (gm_bounds h1) r _ D (proj1 M) Hq L1 L2 LV ER U1 U2 V V' MS CA fuel (max_range m) Hf Hm) as SM.
  rewrite (wf_resolution _ _ _ _ _ W1) in Ec. rewrite (wf_resolution _ _ _ _ _ W2) in Ec'. 
  rewrite Ec in SM. cbn [outcome_map shifted_sets fst snd] in SM.
  rewrite SM in Ec'. injection Ec' as <- <-. rewrite <- (wf_resolution _ _ _ _ _ W1) in Ec. rewrite <- (wf_resolution _ _ _ _ _ W2) in SM.
  assert (Len : forall p, p = o \/ In p (pc_points cloud) -> length p = d).
  { intros p Hp. destruct (V p Hp) as (_ & [L _]). rewrite !map_length in L. lia. }
  assert (SZ : Forall (fun c : cell => length c = d) free /\ Forall (fun c : cell => length c = d) occ).
  { destruct (cast_rays_sets _ _ _ _ _ _ _ _ Ec) as (_ & AO & AF & _). pose proof (proj1 M) as Hd.
    split; apply Forall_forall; intros x Hx.
    - apply AF in Hx. destruct Hx as [(p & rc & oe & Hp & E & J) _]. apply (ray_sized fuel d o p) in E; auto. destruct E as [E _]. rewrite Forall_forall in E. auto.
    - apply AO in Hx. destruct Hx as (p & rc & Hp & E). apply (ray_sized fuel d o p) in E; auto. now apply E. }
  destruct SZ as [Zf Zo].
  assert (INJ : forall l x, Forall (fun c : cell => length c = d) l -> length x = d -> In (shifted D x) (map (shifted D) l) -> In x l).
  { intros l x Sl Lx J. apply in_map_iff in J. destruct J as (y & E & J). rewrite Forall_forall in Sl. apply shifted_inj in E; [now subst| |]; rewrite ?(Sl y J); lia. }
  destruct (expand_storage _ _ _ _ (wf_storage _ _ _ _ _ W) E1) as (_ & X1 & X2 & _). destruct (expand_storage _ _ _ _ (wf_storage _ _ _ _ _ Wh) E1') as (_ & X1' & X2' & _).
  exists cb1, cb2. split; [apply (covers_same d r t g1); try congruence; now apply wf_covers|]. split; [apply (covers_same d r t h1); try congruence; now apply wf_covers|].
  intros w x Lw. assert (SE1 : forall y, world_value g1 cb1 f0 w y <-> world_value h1 cb2 f0 (shifted K w) y).
  { intro y. rewrite <- V1, <- V2. now apply SE. }
  pose proof W1 as [_ _ (A1 & _) _ _ _ _ _]. pose proof W2 as [_ _ (A2 & _) _ _ _ _ _].
  assert (LKw : length (shifted K w) = d) by (rewrite shifted_length; lia).
  destruct (scan_value d r t fuel m g1 g' o cloud cb1 free occ W1 Ec Hocc Hfree Hrest w x Lw) as (P1 & P2 & P3).
  destruct (scan_value d r t fuel m h1 h' o' cloud' cb2 _ _ W2 SM Hocc' Hfree' Hrest' (shifted K w) x LKw) as (Q1 & Q2 & Q3).
  pose proof (index_shift w K (cmin cb1) (cmin cb2) ltac:(unfold cell in *; lia) ltac:(unfold cell in *; lia) ltac:(unfold cell in *; lia)) as IS. fold D in IS. unfold cell in *. rewrite IS in Q1, Q2, Q3.
  assert (Lc : length (map2 Z.sub w (cmin cb1)) = d) by (apply map2_len; assumption). set (c := map2 Z.sub w (cmin cb1)) in *.
  destruct (in_dec (list_eq_dec Z.eq_dec) c occ) as [Y|Y].
  - rewrite (P1 Y), (Q1 (in_map _ _ _ Y)). split; intros (v & H1 & H2); exists v; (split; [|exact H2]); now apply SE1.
  - destruct (in_dec (list_eq_dec Z.eq_dec) c free) as [Y'|Y'].
    + rewrite (P2 Y'), (Q2 (in_map _ _ _ Y')). split; intros (v & H1 & H2); exists v; (split; [|exact H2]); now apply SE1.
    + rewrite (P3 Y Y'), Q3; [apply SE1| |]; intro J; apply INJ in J; try assumption; contradiction.
Qed.

Lemma nothing_inside : forall d w, d <> O -> ~ in_box (cb_empty d) w.
Proof.
  intros [|d] w H [A B]; [now apply H|]. unfold cb_empty, cell_origin in A, B. cbn [cmin cmax repeat] in A, B. destruct w as [|x w]; inversion A; subst; inversion B; subst; lia.
Qed.

Lemma new_elsewhere : forall d r t K (g : grid_map f32), map_range d r t -> gm_new r (bounds_empty d) t f0 = Ret g -> same_elsewhere d r t K g g.
Proof.
  intros d r t K g M E. destruct (zero_ordered d t) as (O & T & N). rewrite (empty_bounds d r) in E by apply M.
  destruct (wf_new _ _ _ _ f0 _ M O T N E) as (W & _). exists (cb_empty d), (cb_empty d). split; [now apply wf_covers|]. split; [now apply wf_covers|].
  assert (D : d <> 0%nat) by (destruct M as [[-> | ->] _]; discriminate).
  intros w x _. unfold world_value. split; intros [_ H]; (split; [intro B; now apply nothing_inside in B|]); intros _; apply H; now apply nothing_inside.
Qed.

Lemma moved_reachable : forall d r t q m K g h, moved_history d r t q m K g h -> reachable d r t g /\ reachable d r t h.
Proof.
  intros d r t q m K g h H. induction H as [g E|g h fuel of oo of' oo' o cloud o' cloud' g' h' H [R1 R2] Hf O1 O2 O3 O4 MS RQ RQ' I I' N N' V V'].
  - split; exact (reach_new d r t f0 g E).
  - split; [exact (integrate_reachable _ _ _ _ _ _ _ _ _ _ _ R1 RQ I)|exact (integrate_reachable _ _ _ _ _ _ _ _ _ _ _ R2 RQ' I')].
Qed.

(** However many scans. *)
Lemma history_elsewhere : forall d r t q m K g h, map_range d r t -> -60 <= q <= 30 -> even_units q r -> length K = d ->
  fltb f0 (max_range m) = false \/ (finite (max_range m) /\ (real (max_range m) <= IZR (2 ^ 21) * bpow radix2 q)%R) ->
  moved_history d r t q m K g h -> same_elsewhere d r t K g h.
Proof.
  intros d r t q m K g h M Hq ER LK Hm H. induction H as [g E|g h fuel of oo of' oo' o cloud o' cloud' g' h' H IH Hf O1 O2 O3 O4 MS RQ RQ' I I' N N' V V'].
  - now apply new_elsewhere.
  - destruct (moved_reachable _ _ _ _ _ _ _ _ H) as [RG RH].
    exact (step_elsewhere d r t q K fuel of oo of' oo' m g h o cloud o' cloud' g' h' M Hq ER Hm LK RG RH IH Hf O1 O2 O3 O4 MS RQ RQ' I I' N N' V V').
Qed.

Lemma sub_add : forall (c lo : list Z), length c = length lo -> map2 Z.sub (map2 Z.add lo c) lo = c.
Proof. induction c as [|x c IH]; intros [|y lo] L; cbn in *; try discriminate; [reflexivity|]. f_equal; [lia|]. apply IH. lia. Qed.

(** What is read at a point: the value of its world cell, or nothing outside of the map. *)
Lemma read_value : forall d r t (g : grid_map f32) cb c, wf d r t g cb -> cells_in_isize c -> length c = d ->
  (exists x, gm_get g c = Ret x /\ world_value g cb f0 (map2 Z.add (cmin cb) c) x) \/ (gm_get g c = Panic /\ world_value g cb f0 (map2 Z.add (cmin cb) c) f0).
Proof.
  intros d r t g cb c W Ic Lc. pose proof W as [_ _ (O1 & O2 & _) _ _ _ Ws St]. destruct (gm_get_iff g c St Ic) as [IN OUT]. rewrite Ws in IN, OUT. unfold world_value.
  rewrite sub_add by (unfold cell in *; lia). destruct (in_box_dec cb (map2 Z.add (cmin cb) c)) as [B|B].
  - left. assert (R := B). apply box_range in R; [|unfold cell in *; lia]. destruct R as [_ R]. rewrite sub_add in R by (unfold cell in *; lia).
    destruct (IN R) as [x G]. exists x. split; [exact G|]. split; [auto|contradiction].
  - right. split; [|split; [contradiction|reflexivity]]. apply OUT. intro R. apply B. apply (range_box cb c); [unfold cell in *; lia|exact R].
Qed.

Lemma value_unique : forall (g : grid_map f32) cb w x y, world_value g cb f0 w x -> world_value g cb f0 w y -> x = y.
Proof. intros g cb w x y [A B] [A' B']. destruct (in_box_dec cb w) as [I|I]; [specialize (A I); specialize (A' I); congruence|]. rewrite (B I), (B' I). reflexivity. Qed.

(** The maps at a point and at the point moved likewise. *)
Lemma points_elsewhere : forall d r t q m K g h p p', map_range d r t -> -60 <= q <= 30 -> even_units q r -> length K = d ->
  fltb f0 (max_range m) = false \/ (finite (max_range m) /\ (real (max_range m) <= IZR (2 ^ 21) * bpow radix2 q)%R) ->
  moved_history d r t q m K g h -> near_zero q (bmin (gm_bounds g)) -> near_zero q (bmin (gm_bounds h)) ->
  Forall (units q) p -> Forall (units q) p' -> above (map real (bmin (gm_bounds g))) (map real p) -> above (map real (bmin (gm_bounds h))) (map real p') ->
  moved_by (cells_of (real r) K) (map real p) (map real p') ->
  let x := gm_get g (gm_cell_from_point g p) in let y := gm_get h (gm_cell_from_point h p') in
  ((exists v, x = Ret v) /\ y = x) \/ (x = Ret f0 /\ y = Panic) \/ (x = Panic /\ y = Ret f0) \/ (x = Panic /\ y = Panic).
Proof.
  intros d r t q m K g h p p' M Hq ER LK Hm H N N' U U' A A' MP x y.
  destruct (moved_reachable _ _ _ _ _ _ _ _ H) as [RG RH]. destruct (history_elsewhere d r t q m K g h M Hq ER LK Hm H) as (c1 & c2 & C1 & C2 & SE).
  destruct (wf_of_reachable d r t g M RG) as [cb W]. destruct (wf_of_reachable d r t h M RH) as [cb' W']. assert (HR : res_ok r) by apply M.
  rewrite (covers_unique d r t g c1 cb HR C1 (wf_covers _ _ _ _ _ M W)) in SE. rewrite (covers_unique d r t h c2 cb' HR C2 (wf_covers _ _ _ _ _ M W')) in SE. clear c1 c2 C1 C2.
  destruct (corners_along d r t q g h cb cb' K M Hq ER W W' N N' LK) as [LV CA]. set (D := map2 Z.add (map2 Z.sub (cmin cb) (cmin cb')) K) in *.
  destruct (corner_units _ _ _ _ _ _ _ M W Hq ER N) as (L1 & U1 & _). destruct (corner_units _ _ _ _ _ _ _ M W' Hq ER N') as (L2 & U2 & _).
  assert (Lp : length p = d). { destruct A as [L _]. rewrite !map_length in L. lia. }
  destruct (moved_len _ p p' d MP Lp) as [Lp' _]. destruct (even_isu q r ER) as (k & Hk & Hr).
  assert (CM : gm_cell_from_point h p' = shifted D (gm_cell_from_point g p)).
  { unfold gm_cell_from_point. rewrite (wf_resolution _ _ _ _ _ W), (wf_resolution _ _ _ _ _ W').
    apply (cell_moved d q k p p (bmin (gm_bounds g)) p' p' (bmin (gm_bounds h)) r D (proj1 M) Hq); try assumption.
    - now apply (carried_along d q k _ _ p p' r (cells_of (real r) K)).
    - now apply over_reals.
    - now apply over_reals. }
  assert (Lc : length (gm_cell_from_point g p) = d). { unfold gm_cell_from_point. destruct (cell_from_point_coords p (bmin (gm_bounds g)) (gm_resolution g)) as [L _]; [unfold point in *; lia|]. lia. }
  assert (Ic : cells_in_isize (gm_cell_from_point g p)) by apply cfp_in_isize. assert (Ic' : cells_in_isize (gm_cell_from_point h p')) by apply cfp_in_isize.
  subst x y. rewrite CM in *. set (c := gm_cell_from_point g p) in *. clearbody c.
  pose proof W as [_ _ (A1 & _) _ _ _ _ _]. pose proof W' as [_ _ (A2 & _) _ _ _ _ _].
  assert (LD : length (shifted D c) = d) by (rewrite shifted_length; lia).
  assert (E : map2 Z.add (cmin cb') (shifted D c) = shifted K (map2 Z.add (cmin cb) c)).
  { pose proof (index_shift (map2 Z.add (cmin cb) c) K (cmin cb) (cmin cb')) as X. rewrite sub_add in X by (unfold cell in *; lia). fold D in X.
    assert (LL : length (map2 Z.add (cmin cb) c) = d) by (apply map2_len; assumption). rewrite <- X by (unfold cell in *; lia). apply box_add. rewrite shifted_length; unfold cell in *; lia. }
  assert (LL : length (map2 Z.add (cmin cb) c) = d) by (apply map2_len; assumption).
  destruct (read_value d r t g cb c W Ic Lc) as [(x & G & V)|[G V]]; destruct (read_value d r t h cb' (shifted D c) W' Ic' LD) as [(y & G' & V')|[G' V']]; rewrite E in V'; rewrite G, G';
  apply SE in V; try exact LL; pose proof (value_unique _ _ _ _ _ V V') as Q; subst.
  - left. split; [now eexists|reflexivity].
  - right. left. auto.
  - right. right. left. auto.
  - auto.
Qed.
