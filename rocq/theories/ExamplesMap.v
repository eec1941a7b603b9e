(** Concrete grid maps: examples for the theorems and witnesses. *)
From Coq Require Import ZArith List Bool Reals Lra Lia Psatz.
From Flocq Require Import Core BinarySingleNaN.
From Verif Require Import Base F32 FloatFacts RoundError Arith Geom NdArray GridMap Spec SpecMap ConverterProofs BoundsProofs NdProofs GridProofs ExpandProofs MapProofs Examples.
Open Scope Z_scope.

Lemma ret_ex : forall {X} (o : outcome X) (P : X -> bool),
  match o with Ret x => P x | _ => false end = true -> exists x, o = Ret x /\ P x = true.
Proof. intros X o P H. destruct o; try discriminate. eauto. Qed.
Definition tenth : f32 := f32_lit 1 10.
Lemma within_tenth : forall n x, finite x -> (Rabs (real x) <= 20)%R -> 1000 <= n -> within_cells n tenth x.
Proof.
  intros n x F H N. split; [assumption|]. unfold real in *. unfold tenth. closed_float (f32_lit 1 10). rewrite V.
  apply IZR_le in N. lra.
Qed.

(** The map grown twice: from nothing to [-0.36,0.25]x[-0.11,0.1], then beyond. *)
Definition ex_b1 : bounds := mkBounds [f32_lit (-36) 100; f32_lit (-11) 100] [f32_lit 25 100; f32_lit 1 10].
Definition ex_b2 : bounds := mkBounds [f32_lit (-1) 1; f32_lit (-2) 10] [f0; f32_lit 7 10].
Lemma ex_map_range : map_range 2 tenth 4.
Proof. split; [now left|]. split; [exact res_tenth|]. lia. Qed.
Ltac within x := apply (within_tenth (2 ^ 18) x); [fin|unfold real; closed_float x; match goal with V : B2R x = _ |- _ => rewrite V; unfold Rabs; destruct (Rcase_abs _); lra end|lia].
Lemma ex_b1_ok : request_ok 2 tenth ex_b1.
Proof.
  split; [|split].
  - repeat split; try reflexivity. repeat constructor; vm_compute; reflexivity.
  - repeat apply Forall_cons; [| |apply Forall_nil]; [within (f32_lit (-36) 100)|within (f32_lit (-11) 100)].
  - repeat apply Forall_cons; [| |apply Forall_nil]; [within (f32_lit 25 100)|within (f32_lit 1 10)].
Qed.
Lemma ex_b2_ok : request_ok 2 tenth ex_b2.
Proof.
  split; [|split].
  - repeat split; try reflexivity. repeat constructor; vm_compute; reflexivity.
  - repeat apply Forall_cons; [| |apply Forall_nil]; [within (f32_lit (-1) 1)|within (f32_lit (-2) 10)].
  - repeat apply Forall_cons; [| |apply Forall_nil]; [within f0|within (f32_lit 7 10)].
Qed.

Definition shape_is (g : grid_map Z) (l : list Z) : bool := cell_eqb (nd_shape (gm_data g)) l.
Definition reads (g : grid_map Z) (c : cell) (v : Z) : bool :=
  match gm_get g c with Ret x => Z.eqb x v | _ => false end.

(** New map, expanded, written to and expanded again. *)
Lemma ex_maps_full : exists g0 g1 g2 g3 : grid_map Z,
  gm_new tenth (bounds_empty 2) 4 7 = Ret g0 /\ reachable 2 tenth 4 g0 /\
  gm_expand_bounds g0 ex_b1 8 = Ret g1 /\ gm_set g1 [3; 5] 9 = Ret g2 /\ reachable 2 tenth 4 g2 /\
  gm_expand_bounds g2 ex_b2 10 = Ret g3 /\
  nd_shape (gm_data g2) = [8; 8] /\ nd_shape (gm_data g3) = [16; 12] /\
  (gm_get g2 [3; 5] = Ret 9 /\ gm_get g3 [11; 5] = Ret 9 /\ gm_get g3 [11; 6] = Ret 8 /\ gm_get g3 [3; 5] = Ret 10) /\
  cb_from_bounds (gm_bounds g1) tenth = mkCB [-4; -4] [4; 4] /\ cb_from_bounds (gm_bounds g3) tenth = mkCB [-12; -4] [4; 8].
Proof.
  pose (P := fun g0 : grid_map Z => match gm_expand_bounds g0 ex_b1 8 with Ret g1 =>
    match gm_set g1 [3; 5] 9 with Ret g2 => match gm_expand_bounds g2 ex_b2 10 with Ret g3 =>
      shape_is g2 [8; 8] && shape_is g3 [16; 12] && reads g2 [3; 5] 9 && reads g3 [11; 5] 9 && reads g3 [11; 6] 8 && reads g3 [3; 5] 10 &&
      cb_eqb (cb_from_bounds (gm_bounds g1) tenth) (mkCB [-4; -4] [4; 4]) && cb_eqb (cb_from_bounds (gm_bounds g3) tenth) (mkCB [-12; -4] [4; 8])
    | _ => false end | _ => false end | _ => false end).
  destruct (ret_ex (gm_new tenth (bounds_empty 2) 4 7) P) as (g0 & E0 & P0); [unfold P; vm_compute; reflexivity|].
  unfold P in P0. clear P. exists g0. 
  apply ret_ex in P0. destruct P0 as (g1 & E1 & P1). exists g1. apply ret_ex in P1. destruct P1 as (g2 & E2 & P2). exists g2.
  apply ret_ex in P2. destruct P2 as (g3 & E3 & P3). exists g3.
  repeat rewrite andb_true_iff in P3. destruct P3 as (((((((S2 & S3) & R1) & R2) & R3) & R4) & B1) & B2).
  assert (RD : forall g c v, reads g c v = true -> gm_get g c = Ret v).
  { unfold reads. intros g c v H. clear -H. destruct (gm_get g c); try discriminate H. f_equal. now apply Z.eqb_eq. }
  split; [assumption|]. assert (R0 : reachable 2 tenth 4 g0) by (eapply reach_new; eassumption).
  split; [assumption|]. split; [assumption|]. split; [assumption|].
  split. { eapply reach_set; [|eassumption]. eapply reach_expand; [eassumption|exact ex_b1_ok|eassumption]. }
  split; [assumption|]. split; [now apply cell_eqb_true|]. split; [now apply cell_eqb_true|].
  split; [auto 6|]. split; now apply cb_eqb_true.
Qed.

Lemma ex_maps : exists g0 g1 g2 g3 : grid_map Z,
  gm_new tenth (bounds_empty 2) 4 7 = Ret g0 /\ reachable 2 tenth 4 g0 /\
  gm_expand_bounds g0 ex_b1 8 = Ret g1 /\ gm_set g1 [3; 5] 9 = Ret g2 /\ reachable 2 tenth 4 g2 /\
  gm_expand_bounds g2 ex_b2 10 = Ret g3 /\
  nd_shape (gm_data g2) = [8; 8] /\ nd_shape (gm_data g3) = [16; 12] /\
  gm_get g2 [3; 5] = Ret 9 /\ gm_get g3 [11; 5] = Ret 9 /\ gm_get g3 [11; 6] = Ret 8 /\ gm_get g3 [3; 5] = Ret 10.
Proof.
  destruct ex_maps_full as (g0 & g1 & g2 & g3 & H0 & H1 & H2 & H3 & H4 & H5 & H6 & H7 & (H8 & H9 & H10 & H11) & _).
  exists g0, g1, g2, g3. repeat (split; [assumption|]). assumption.
Qed.

Lemma ex_ranges : exists g : grid_map Z, storage_ok (gm_data g) /\ nd_shape (gm_data g) = [8; 8] /\
  in_range [8; 8] [7; 0] /\ ~ in_range [8; 8] [7; 8] /\ cells_in_isize [7; -1].
Proof.
  destruct ex_maps_full as (g0 & g1 & g2 & g3 & H0 & H1 & H2 & H3 & H4 & H5 & H6 & _).
  exists g2. destruct (reachable_covers 2 tenth 4 g2 ex_map_range H4) as [cb C]. split; [apply C|]. split; [assumption|].
  split; [repeat constructor; lia|]. split; [|repeat constructor; unfold isize_min, isize_max; lia].
  intro H. inversion H as [|? ? ? ? _ H']; subst. inversion H' as [|? ? ? ? L _]; subst. lia.
Qed.
Lemma ex_map_cell : exists g : grid_map Z, map_range 2 tenth 4 /\ reachable 2 tenth 4 g /\ in_range (nd_shape (gm_data g)) [7; 3].
Proof.
  destruct ex_maps_full as (g0 & g1 & g2 & g3 & H0 & H1 & H2 & H3 & H4 & H5 & H6 & _).
  exists g2. split; [exact ex_map_range|]. split; [assumption|]. rewrite H6. repeat constructor; lia.
Qed.
Lemma ex_aligned : res_ok tenth /\ cb_ordered 3 (mkCB [-3; 5; 0] [4; 7; 2]) /\ cb_near (2 ^ 19) (mkCB [-3; 5; 0] [4; 7; 2]).
Proof. split; [exact res_tenth|]. unfold cb_ordered, cb_near. cbn [cmin cmax length]. repeat split; repeat constructor; lia. Qed.
Lemma ex_aligned_tiles : cb_ordered 2 (mkCB [-4; 8] [12; 16]) /\ tile_aligned 4 (mkCB [-4; 8] [12; 16]) /\ cb_near (2 ^ 18) (mkCB [-4; 8] [12; 16]).
Proof.
  unfold cb_ordered, cb_near, tile_aligned. cbn [cmin cmax length]. repeat split; repeat constructor; try lia;
  [exists (-1)|exists 2|exists 3|exists 4]; lia.
Qed.

(** What the example's history wrote. *)
Definition in_boxb (cb : cell_bounds) (w : cell) : bool :=
  Nat.eqb (length (cmin cb)) (length w) && Nat.eqb (length w) (length (cmax cb)) &&
  forallb (fun p => fst p <=? snd p) (combine (cmin cb) w) && forallb (fun p => fst p <? snd p) (combine w (cmax cb)).
Lemma forallb2 : forall (f : Z -> Z -> bool) (P : Z -> Z -> Prop), (forall x y, f x y = true <-> P x y) ->
  forall a b, Nat.eqb (length a) (length b) && forallb (fun p => f (fst p) (snd p)) (combine a b) = true <-> Forall2 P a b.
Proof.
  intros f P HP. induction a as [|x a IH]; intros [|y b]; cbn [length Nat.eqb combine forallb andb fst snd].
  - split; auto.
  - split; [discriminate|intro H; inversion H].
  - split; [discriminate|intro H; inversion H].
  - specialize (IH b). rewrite !andb_true_iff in *. rewrite HP. split.
    + intros (H1 & H2 & H3). constructor; tauto.
    + intros H. inversion H; subst. tauto.
Qed.
Lemma in_boxb_iff : forall cb w, in_boxb cb w = true <-> in_box cb w.
Proof.
  intros cb w. unfold in_box. rewrite <- (forallb2 Z.leb Z.le Z.leb_le), <- (forallb2 Z.ltb Z.lt Z.ltb_lt).
  unfold in_boxb. rewrite !andb_true_iff. tauto.
Qed.
Definition ex_W0 (w : cell) : option Z := None.
Definition ex_W1 (w : cell) : option Z := if in_boxb (mkCB [-4; -4] [4; 4]) w then Some 8 else None.
Definition ex_W2 (w : cell) : option Z := if cell_eqb w [-1; 1] then Some 9 else ex_W1 w.
Definition ex_W3 (w : cell) : option Z :=
  match ex_W2 w with Some x => Some x | None => if in_boxb (mkCB [-12; -4] [4; 8]) w then Some 10 else None end.
Lemma ex_history : exists (g : grid_map Z) W, history 2 tenth 4 g W /\
  W [-1; 1] = Some 9 /\ W [0; 2] = Some 8 /\ W [-9; 2] = Some 10 /\ W [8; 2] = None.
Proof.
  destruct ex_maps_full as (g0 & g1 & g2 & g3 & H0 & H1 & H2 & H3 & H4 & H5 & H6 & H7 & _ & B1 & B3).
  exists g3, ex_W3. split; [|repeat split].
  assert (R1 : reachable 2 tenth 4 g1) by (eapply reach_expand; [exact H1|exact ex_b1_ok|exact H2]).
  assert (R3 : reachable 2 tenth 4 g3) by (eapply reach_expand; [exact H4|exact ex_b2_ok|exact H5]).
  pose proof (covers_cells_computed _ 2 tenth 4 g1 ex_map_range R1) as C1. rewrite B1 in C1.
  pose proof (covers_cells_computed _ 2 tenth 4 g3 ex_map_range R3) as C3. rewrite B3 in C3.
  assert (K0 : history 2 tenth 4 g0 ex_W0) by (apply (hist_new _ _ _ 7); [exact H0|reflexivity]).
  assert (K1 : history 2 tenth 4 g1 ex_W1).
  { apply (hist_expand _ _ _ g0 ex_W0 ex_b1 8 g1 _ ex_W1 K0 ex_b1_ok H2 C1).
    - intros w x H. discriminate H.
    - intros w _ H. unfold ex_W1. apply in_boxb_iff in H. now rewrite H.
    - intros w _ H. unfold ex_W1. destruct (in_boxb _ w) eqn:E; [apply in_boxb_iff in E; contradiction|reflexivity]. }
  assert (K2 : history 2 tenth 4 g2 ex_W2).
  { apply (hist_set _ _ _ g1 ex_W1 [3; 5] 9 g2 _ ex_W2 K1 C1).
    - repeat constructor; unfold isize_min, isize_max; lia.
    - exact H3.
    - reflexivity.
    - intros w H. unfold ex_W2. destruct (cell_eqb w [-1; 1]) eqn:E; [apply cell_eqb_true in E; contradiction|reflexivity]. }
  apply (hist_expand _ _ _ g2 ex_W2 ex_b2 10 g3 _ ex_W3 K2 ex_b2_ok H5 C3).
  - intros w x H. unfold ex_W3. now rewrite H.
  - intros w E H. unfold ex_W3. rewrite E. apply in_boxb_iff in H. now rewrite H.
  - intros w E H. unfold ex_W3. rewrite E. destruct (in_boxb _ w) eqn:Q; [apply in_boxb_iff in Q; contradiction|reflexivity].
Qed.

(** A requested point for which there is no room. *)
Definition ex_p : point := [f32_lit 36 100; f0].
Definition ex_bp : bounds := mkBounds [f0; f0] ex_p.
Lemma ex_bp_ok : request_ok 2 tenth ex_bp.
Proof.
  split; [|split].
  - repeat split; try reflexivity. repeat constructor; vm_compute; reflexivity.
  - repeat apply Forall_cons; [| |apply Forall_nil]; within f0.
  - repeat apply Forall_cons; [| |apply Forall_nil]; [within (f32_lit 36 100)|within f0].
Qed.
Lemma no_room : exists (g g' : grid_map Z) b p, map_range 2 tenth 4 /\ reachable 2 tenth 4 g /\ request_ok 2 tenth b /\
  inside b p /\ gm_expand_bounds g b 0 = Ret g' /\ gm_get g' (gm_cell_from_point g' p) = Panic.
Proof.
  pose (P := fun g : grid_map Z => match gm_expand_bounds g ex_bp 0 with Ret g' =>
     match gm_get g' (gm_cell_from_point g' ex_p) with Panic => true | _ => false end | _ => false end).
  destruct (ret_ex (gm_new tenth (bounds_empty 2) 4 0) P) as (g & E & H); [unfold P; vm_compute; reflexivity|].
  unfold P in H. clear P. apply ret_ex in H. destruct H as (g' & E' & H). exists g, g', ex_bp, ex_p.
  split; [exact ex_map_range|]. split; [eapply reach_new; eassumption|]. split; [exact ex_bp_ok|].
  split; [split; repeat constructor; vm_compute; reflexivity|]. split; [assumption|].
  clear E E'. destruct (gm_get g' (gm_cell_from_point g' ex_p)); [discriminate H|reflexivity|discriminate H].
Qed.

(** A requested point inside the previous example's box for which there is. *)
Lemma ex_room : inside ex_b1 [f32_lit (-36) 100; f0] /\ Forall2 (axis_safe tenth) [f32_lit (-36) 100; f0] (bmax ex_b1).
Proof.
  split; [split; repeat constructor; vm_compute; reflexivity|]. repeat apply Forall2_cons; [| |apply Forall2_nil]; unfold tenth.
  - left. unfold real. closed_float (f32_lit (-36) 100). rewrite V. clear V. closed_float (f32_lit 1 10). rewrite V. clear V.
    closed_float (f32_lit 25 100). rewrite V. lra.
  - right. exists 0. unfold real. simpl (B2R f0). closed_float (f32_lit 1 10). rewrite V. lra.
Qed.

(** A map built for a box that is not aligned. *)
Definition ex_unaligned : bounds := mkBounds [f32_lit 4 100; f32_lit 4 100] [f32_lit 26 100; f32_lit 26 100].
Definition ex_request : bounds := mkBounds [f32_lit 1 10; f32_lit 1 10] [f1; f1].
Lemma unaligned_panics : exists b b' (g : grid_map Z), ordered 2 b /\ request_ok 2 tenth b' /\
  gm_new tenth b 2 0 = Ret g /\ gm_expand_bounds g b' 0 = Panic.
Proof.
  exists ex_unaligned, ex_request.
  destruct (ret_ex (gm_new tenth ex_unaligned 2 0) (fun g => match gm_expand_bounds g ex_request 0 with Panic => true | _ => false end)) as (g & E & H); [vm_compute; reflexivity|].
  exists g. split; [repeat split; try reflexivity; repeat constructor; vm_compute; reflexivity|]. split.
  { split; [|split].
    - repeat split; try reflexivity. repeat constructor; vm_compute; reflexivity.
    - repeat apply Forall_cons; [| |apply Forall_nil]; within (f32_lit 1 10).
    - repeat apply Forall_cons; [| |apply Forall_nil]; within f1. }
  split; [assumption|]. clear E. destruct (gm_expand_bounds g ex_request 0); [discriminate H|reflexivity|discriminate H].
Qed.

Lemma ex_covered : exists (g : grid_map Z) db, reachable 2 tenth 4 g /\ bounds_discretized ex_bp tenth true = Ret db /\
  sub_box db (gm_bounds g).
Proof.
  pose (Q := fun g : grid_map Z => match gm_expand_bounds g ex_bp 0 with Ret g' =>
     match bounds_discretized ex_bp tenth true with Ret db =>
       match bmin db, bmax db, bmin (gm_bounds g'), bmax (gm_bounds g') with
       | [a; b], [c; d], [e; f], [h; k] => fleb e a && fleb f b && fleb c h && fleb d k
       | _, _, _, _ => false end | _ => false end | _ => false end).
  destruct (ret_ex (gm_new tenth (bounds_empty 2) 4 0) Q) as (g & E & H); [unfold Q; vm_compute; reflexivity|].
  unfold Q in H. clear Q. apply ret_ex in H. destruct H as (g' & E' & H). apply ret_ex in H. destruct H as (db & Edb & H).
  exists g', db. split; [eapply reach_expand; [eapply reach_new; exact E|exact ex_bp_ok|exact E']|]. split; [assumption|].
  clear E E' Edb. destruct db as [mn mx], (gm_bounds g') as [lo hi]. cbn [bmin bmax] in H. unfold sub_box. cbn [bmin bmax].
  destruct mn as [|a [|b [|? ?]]]; try discriminate H. destruct mx as [|c [|d [|? ?]]]; try discriminate H.
  destruct lo as [|e [|f [|? ?]]]; try discriminate H. destruct hi as [|h [|k [|? ?]]]; try discriminate H.
  rewrite !andb_true_iff in H. destruct H as (((P1 & P2) & P3) & P4). split; repeat constructor; assumption.
Qed.

(** Maps made for boxes that are not aligned: two cells along each axis by their size,
    but only one from the rounded corner to the rounded corner. *)
Definition ex_short : bounds := mkBounds [f32_lit 6 100; f32_lit 6 100] [f32_lit 24 100; f32_lit 24 100].
Lemma ex_short_ok : request_ok 2 tenth ex_short.
Proof.
  split; [|split].
  - repeat split; try reflexivity. repeat constructor; vm_compute; reflexivity.
  - repeat apply Forall_cons; [| |apply Forall_nil]; within (f32_lit 6 100).
  - repeat apply Forall_cons; [| |apply Forall_nil]; within (f32_lit 24 100).
Qed.
Lemma ex_request_ok : request_ok 2 tenth ex_request.
Proof.
  split; [|split].
  - repeat split; try reflexivity. repeat constructor; vm_compute; reflexivity.
  - repeat apply Forall_cons; [| |apply Forall_nil]; within (f32_lit 1 10).
  - repeat apply Forall_cons; [| |apply Forall_nil]; within f1.
Qed.
Lemma nd_get_in : forall {A} (a : ndarray A) c x, nd_get a c = Ret x -> In x (nd_data a).
Proof.
  intros A a c x H. unfold nd_get in H. destruct (in_shape _ _); [|discriminate]. destruct (nth_error _ _) eqn:F; [|discriminate].
  injection H as <-. now apply nth_error_In in F.
Qed.
Lemma short_loses : exists b b' (g g' : grid_map Z), request_ok 2 tenth b /\ request_ok 2 tenth b' /\ built tenth 2 b g /\
  gm_expand_bounds g b' 0 = Ret g' /\ in_range (nd_shape (gm_data g)) [1; 1] /\ gm_get g [1; 1] = Ret 7 /\
  forall c, gm_get g' c <> Ret 7.
Proof.
  exists ex_short, ex_request.
  pose (P := fun g0 : grid_map Z => match gm_set g0 [1; 1] 7 with Ret g => match gm_expand_bounds g ex_request 0 with Ret g' =>
    shape_is g [2; 2] && reads g [1; 1] 7 && forallb (fun x => x =? 0) (nd_data (gm_data g')) | _ => false end | _ => false end).
  destruct (ret_ex (gm_new tenth ex_short 2 0) P) as (g0 & E0 & P0); [unfold P; vm_compute; reflexivity|].
  unfold P in P0. clear P. apply ret_ex in P0. destruct P0 as (g & E1 & P1). apply ret_ex in P1. destruct P1 as (g' & E2 & P2).
  exists g, g'. rewrite !andb_true_iff in P2. destruct P2 as ((S & R) & Z0).
  split; [exact ex_short_ok|]. split; [exact ex_request_ok|].
  split; [apply (built_set _ _ _ g0 [1; 1] 7); [now apply (built_new _ _ _ 0)|exact E1]|].
  split; [exact E2|]. unfold shape_is in S. apply cell_eqb_true in S. rewrite S. split; [repeat constructor; lia|].
  unfold reads in R. split; [destruct (gm_get g [1; 1]) as [x| |]; try discriminate R; apply Z.eqb_eq in R; now subst|].
  intros c H. unfold gm_get in H. apply nd_get_in in H. rewrite forallb_forall in Z0. apply Z0 in H. discriminate H.
Qed.

(** A box whose corners lie on no tile border and that can be expanded: from (0.1, 0.1) to (0.4, 0.6). *)
Definition ex_fits : bounds := mkBounds [f32_lit 1 10; f32_lit 1 10] [f32_lit 4 10; f32_lit 6 10].
Lemma ex_fits_ok : request_ok 2 tenth ex_fits.
Proof.
  split; [|split].
  - repeat split; try reflexivity. repeat constructor; vm_compute; reflexivity.
  - repeat apply Forall_cons; [| |apply Forall_nil]; within (f32_lit 1 10).
  - repeat apply Forall_cons; [| |apply Forall_nil]; [within (f32_lit 4 10)|within (f32_lit 6 10)].
Qed.
Lemma fits_expands : exists (g g' : grid_map Z) db, request_ok 2 tenth ex_fits /\ built tenth 4 ex_fits g /\ request_ok 2 tenth ex_request /\
  bounds_discretized ex_request tenth true = Ret db /\
  cells_between tenth ex_fits = mkCB [1; 1] [4; 6] /\ nd_shape (gm_data g) = [3; 5] /\
  gm_get g [2; 4] = Ret 9 /\ gm_expand_bounds g ex_request 8 = Ret g' /\ g' <> g /\ nd_shape (gm_data g') = [12; 12] /\
  gm_get g' [3; 5] = Ret 9 /\ gm_get g' [4; 5] = Ret 8.
Proof.
  pose (P := fun g0 : grid_map Z => match gm_set g0 [2; 4] 9 with Ret g => match gm_expand_bounds g ex_request 8 with Ret g' =>
    match bounds_discretized ex_request tenth true with Ret db =>
    shape_is g [3; 5] && reads g [2; 4] 9 && shape_is g' [12; 12] && reads g' [3; 5] 9 && reads g' [4; 5] 8 | _ => false end | _ => false end | _ => false end).
  destruct (ret_ex (gm_new tenth ex_fits 4 0) P) as (g0 & E0 & P0); [unfold P; vm_compute; reflexivity|].
  unfold P in P0. clear P. apply ret_ex in P0. destruct P0 as (g & E1 & P1). apply ret_ex in P1. destruct P1 as (g' & E2 & P2).
  apply ret_ex in P2. destruct P2 as (db & E3 & P3). exists g, g', db.
  rewrite !andb_true_iff in P3. destruct P3 as ((((S & R) & S') & R1) & R2). unfold shape_is in S, S'. apply cell_eqb_true in S, S'.
  assert (RD : forall (h : grid_map Z) c x, reads h c x = true -> gm_get h c = Ret x).
  { intros h c x H. unfold reads in H. destruct (gm_get h c) as [y| |]; try discriminate H. apply Z.eqb_eq in H. now subst. }
  split; [exact ex_fits_ok|]. split; [apply (built_set _ _ _ g0 [2; 4] 9); [now apply (built_new _ _ _ 0)|exact E1]|].
  split; [exact ex_request_ok|]. split; [exact E3|]. split; [vm_compute; reflexivity|]. split; [exact S|]. split; [now apply RD|].
  split; [exact E2|]. split; [intros ->; rewrite S in S'; discriminate S'|]. split; [exact S'|]. split; now apply RD.
Qed.
Lemma ex_reads : exists g : grid_map Z, reachable 2 tenth 4 g /\ covers_cells 2 tenth 4 g (mkCB [-4; -4] [4; 4]) /\
  Forall (within_cells (2 ^ 18) tenth) [f32_lit (-36) 100; f0] /\ Forall (within_cells (2 ^ 18) tenth) [f32_lit 38 100; f0] /\
  (IZR (-4) - 3 / 10 < real (f32_lit (-36) 100) / real tenth < IZR 4 - 7 / 10)%R /\
  (IZR (-4) - 3 / 10 < real f0 / real tenth < IZR 4 - 7 / 10)%R /\
  (IZR 4 - 3 / 10 < real (f32_lit 38 100) / real tenth)%R.
Proof.
  destruct ex_maps_full as (g0 & g1 & g2 & g3 & H0 & H1 & H2 & H3 & H4 & H5 & H6 & H7 & _ & B1 & B3).
  exists g1. assert (R1 : reachable 2 tenth 4 g1) by (eapply reach_expand; [exact H1|exact ex_b1_ok|exact H2]).
  pose proof (covers_cells_computed _ 2 tenth 4 g1 ex_map_range R1) as C1. rewrite B1 in C1.
  split; [exact R1|]. split; [exact C1|]. unfold within_cells, finite, real. change (IZR (2 ^ 18)) with 262144%R.
  assert (T : (99 / 1000 <= B2R tenth <= 101 / 1000)%R) by (unfold tenth; closed_float (f32_lit 1 10); rewrite V; lra).
  assert (P : (-361 / 1000 <= B2R (f32_lit (-36) 100) <= -359 / 1000)%R) by (closed_float (f32_lit (-36) 100); rewrite V; lra).
  assert (Q : (379 / 1000 <= B2R (f32_lit 38 100))%R /\ (B2R (f32_lit 38 100) <= 381 / 1000)%R) by (closed_float (f32_lit 38 100); rewrite V; lra).
  assert (I : (B2R tenth * / B2R tenth = 1)%R) by (apply Rinv_r; lra).
  assert (I2 : (9 <= / B2R tenth <= 11)%R).
  { split; (apply Rmult_le_reg_l with (B2R tenth); [lra|]; rewrite I; lra). }
  clear H0 H1 H2 H3 H4 H5 H6 H7 B1 B3 R1 C1. unfold Rdiv in *. change (B2R f0) with 0%R.
  split; [|split; [|split; [|split]]].
  - repeat apply Forall_cons; try apply Forall_nil; (split; [vm_compute; reflexivity|]); apply Rabs_le; try change (B2R f0) with 0%R; lra.
  - repeat apply Forall_cons; try apply Forall_nil; (split; [vm_compute; reflexivity|]); apply Rabs_le; try change (B2R f0) with 0%R; lra.
  - nra.
  - lra.
  - nra.
Qed.

(** A request well inside the cells of that map. *)
Lemma ex_well_inside : exists g : grid_map Z, reachable 2 tenth 4 g /\ covers_cells 2 tenth 4 g (mkCB [-4; -4] [4; 4]) /\ request_ok 2 tenth ex_bp /\
  Forall2 (fun k x => IZR k + / 5 <= real x / real tenth)%R [-4; -4] (bmin ex_bp) /\
  Forall2 (fun x k => real x / real tenth < IZR k - / 5)%R (bmax ex_bp) [4; 4].
Proof.
  destruct ex_reads as (g & R1 & C1 & _). exists g. split; [exact R1|]. split; [exact C1|]. split; [exact ex_bp_ok|]. unfold ex_bp, ex_p, real. cbn [bmin bmax].
  assert (T : (99 / 1000 <= B2R tenth <= 101 / 1000)%R) by (unfold tenth; closed_float (f32_lit 1 10); rewrite V; lra).
  assert (T' : (999 / 10000 <= B2R tenth)%R) by (unfold tenth; closed_float (f32_lit 1 10); rewrite V; lra).
  assert (Q : (B2R (f32_lit 36 100) <= 3601 / 10000)%R) by (closed_float (f32_lit 36 100); rewrite V; lra).
  assert (Z0 : (B2R f0 / B2R tenth = 0)%R) by (simpl (B2R f0); unfold Rdiv; ring).
  split; repeat apply Forall2_cons; try apply Forall2_nil; rewrite ?Z0; try lra.
  apply Rmult_lt_reg_r with (B2R tenth); [lra|]. unfold Rdiv. rewrite Rmult_assoc, Rinv_l by lra. lra.
Qed.

Lemma array_ok : storage_ok (mkNd [2; 3] [10; 11; 12; 13; 14; 15]) /\ in_range [2; 3] [1; 0].
Proof. split; [split; [|reflexivity]|]; repeat constructor; cbn; unfold isize_max; lia. Qed.
Lemma sizes_of_boxes : cell_from_point F32A [f1; f1] [f0; f0] tenth = [10; 10] /\ cell_from_point F32A [f0; f1] [f1; f0] tenth = [-10; 10].
Proof. split; vm_compute; reflexivity. Qed.
