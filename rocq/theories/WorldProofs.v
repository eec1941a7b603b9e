(** Moving a grid by whole cells and its contents along. *)
From Coq Require Import ZArith List Bool Reals Lra Lia.
From Flocq Require Import Core.
From Verif Require Import Base Geom Spec SpecBack SpecMeet SpecNear SpecWorld NdProofs ConverterProofs GeomProofs RayProofs.
Open Scope R_scope.

Lemma znearest_shift : forall z k, (forall n, z <> IZR n + / 2) -> ZnearestA (z - IZR k) = (ZnearestA z - k)%Z.
Proof.
  intros z k H. apply Znearest_imp. rewrite minus_IZR. replace (z - IZR k - (IZR (ZnearestA z) - IZR k)) with (z - IZR (ZnearestA z)) by ring.
  pose proof (Znearest_half (Z.leb 0) z) as A. fold ZnearestA in A. 
  destruct (Rle_lt_or_eq_dec _ _ A) as [L|E]; [exact L|]. exfalso.
  set (n := ZnearestA z) in *. unfold Rabs in E. destruct (Rcase_abs (z - IZR n)).
  - apply (H (n - 1)%Z). rewrite minus_IZR. lra.
  - apply (H n). lra.
Qed.

Lemma world_nth : forall d i, nth i (world d) 0 = 0.
Proof. intros. unfold world. apply nth_repeat. Qed.
Lemma world_length : forall d, length (world d) = d.
Proof. intro. apply repeat_length. Qed.

Lemma list_eq_nth : forall {X} (a : X) (l l' : list X) d, length l = d -> length l' = d -> (forall i, (i < d)%nat -> nth i l a = nth i l' a) -> l = l'.
Proof. intros X a l l' d L L' H. apply (nth_ext l l' a a); [congruence|]. intros i Hi. apply H. lia. Qed.

Section Shift.
Variables (d : nat) (r : R) (k : cell) (B D : list R).
Hypothesis Pr : 0 < r.
Hypothesis LK : length k = d.
Hypothesis LB : length B = d.
Hypothesis LD : length D = d.
Hypothesis HB : forall i, (i < d)%nat -> nth i B 0 = IZR (nth i k 0%Z) * r + nth i D 0.
Definition move (p : list R) : list R := map2 Rplus p D.
Definition up (x : cell) : cell := map2 Z.add x k.
Definition down (x : cell) : cell := map2 Z.sub x k.

Lemma move_length : forall p, length p = d -> length (move p) = d.
Proof. intros p L. unfold move. rewrite ConverterProofs.map2_length; congruence. Qed.
Lemma up_length : forall x, length x = d -> length (up x) = d.
Proof. intros p L. unfold up. rewrite ConverterProofs.map2_length; unfold cell in *; congruence. Qed.
Lemma down_length : forall x, length x = d -> length (down x) = d.
Proof. intros p L. unfold down. rewrite ConverterProofs.map2_length; unfold cell in *; congruence. Qed.
Lemma move_nth : forall p i, length p = d -> (i < d)%nat -> nth i (move p) 0 = nth i p 0 + nth i D 0.
Proof. intros p i L Hi. unfold move. apply nth_map2; lia. Qed.
Lemma up_nth : forall x i, length x = d -> (i < d)%nat -> nth i (up x) 0%Z = (nth i x 0 + nth i k 0)%Z.
Proof. intros p i L Hi. unfold up. apply nth_map2; unfold cell in *; lia. Qed.
Lemma down_nth : forall x i, length x = d -> (i < d)%nat -> nth i (down x) 0%Z = (nth i x 0 - nth i k 0)%Z.
Proof. intros p i L Hi. unfold down. apply nth_map2; unfold cell in *; lia. Qed.
Lemma up_down : forall x, length x = d -> up (down x) = x.
Proof.
  intros x L. apply (list_eq_nth 0%Z _ _ d); [now apply up_length, down_length|exact L|].
  intros i Hi. rewrite up_nth, down_nth by auto using down_length. lia.
Qed.
Lemma down_up : forall x, length x = d -> down (up x) = x.
Proof.
  intros x L. apply (list_eq_nth 0%Z _ _ d); [now apply down_length, up_length|exact L|].
  intros i Hi. rewrite down_nth, up_nth by auto using up_length. lia.
Qed.

Lemma seg_length' : forall o e u, length o = d -> length e = d -> length (seg o e u) = d.
Proof. intros. unfold seg. rewrite ConverterProofs.map2_length; congruence. Qed.
Lemma seg_nth' : forall o e u i, length o = d -> length e = d -> (i < d)%nat -> nth i (seg o e u) 0 = nth i o 0 + u * (nth i e 0 - nth i o 0).
Proof. intros o e u i Lo Le Hi. unfold seg. rewrite (nth_map2 _ o e i 0 0 0) by lia. reflexivity. Qed.
Lemma move_seg : forall o e u, length o = d -> length e = d -> seg (move o) (move e) u = move (seg o e u).
Proof.
  intros o e u Lo Le. apply (list_eq_nth 0 _ _ d); auto using seg_length', move_length.
  intros i Hi. rewrite seg_nth', !move_nth, seg_nth' by auto using seg_length', move_length. ring.
Qed.

(** Coordinates relative to a cell stay. *)
Lemma move_rel : forall p i z, length p = d -> (i < d)%nat ->
  nth i (move p) 0 - (nth i B 0 + (z - IZR (nth i k 0%Z)) * r) = nth i p 0 - (nth i (world d) 0 + z * r).
Proof. intros p i z L Hi. rewrite move_nth, HB, world_nth by assumption. ring. Qed.
Lemma move_cell : forall p i x, length p = d -> length x = d -> (i < d)%nat ->
  nth i (move p) 0 - (nth i B 0 + IZR (nth i x 0%Z) * r) = nth i p 0 - (nth i (world d) 0 + IZR (nth i (up x) 0%Z) * r).
Proof.
  intros p i x L Lx Hi. rewrite <- move_rel by assumption. rewrite up_nth, plus_IZR by assumption.
  replace (IZR (nth i x 0%Z) + IZR (nth i k 0%Z) - IZR (nth i k 0%Z)) with (IZR (nth i x 0%Z)) by ring. reflexivity.
Qed.
Lemma grown_move : forall g p x, length p = d -> length x = d -> (in_grown_cell g B r x (move p) <-> in_grown_cell g (world d) r (up x) p).
Proof.
  intros g p x L Lx. pose proof (up_length x Lx) as Lu. split; intros H i Hi; [rewrite Lu in Hi|rewrite Lx in Hi].
  - rewrite <- move_cell by assumption. apply H. lia.
  - rewrite move_cell by assumption. apply H. lia.
Qed.
Lemma closed_move : forall p x, length p = d -> length x = d -> (in_closed_cell B r x (move p) <-> in_closed_cell (world d) r (up x) p).
Proof.
  intros p x L Lx. pose proof (up_length x Lx) as Lu. split; intros H i Hi; [rewrite Lu in Hi|rewrite Lx in Hi].
  - rewrite <- move_cell by assumption. apply H. lia.
  - rewrite move_cell by assumption. apply H. lia.
Qed.
Lemma borders_move : forall g p, length p = d -> off_borders g (world d) r p -> off_borders g B r (move p).
Proof.
  intros g p L H i n Hi. rewrite move_length in Hi by assumption.
  specialize (H i (n + nth i k 0)%Z ltac:(lia)). rewrite <- move_rel, plus_IZR in H by assumption.
  replace (IZR n + IZR (nth i k 0%Z) + / 2 - IZR (nth i k 0%Z)) with (IZR n + / 2) in H by ring. exact H.
Qed.
Lemma corner_move : forall g o e, length o = d -> length e = d -> no_corner_near g (world d) r o e -> no_corner_near g B r (move o) (move e).
Proof.
  intros g o e Lo Le H u i j n l Hu Hi Hj N N1 N2. rewrite move_length in Hi, Hj by assumption. rewrite !move_nth in N1, N2 by assumption.
  pose proof (H u i j (n + nth i k 0)%Z (l + nth j k 0)%Z Hu ltac:(lia) ltac:(lia) N ltac:(lra) ltac:(lra)) as C.
  rewrite <- !move_rel, !plus_IZR in C by auto using seg_length'. rewrite move_seg by assumption.
  replace (IZR n + IZR (nth i k 0%Z) + / 2 - IZR (nth i k 0%Z)) with (IZR n + / 2) in C by ring.
  replace (IZR l + IZR (nth j k 0%Z) + / 2 - IZR (nth j k 0%Z)) with (IZR l + / 2) in C by ring. exact C.
Qed.
Lemma dist_diff : forall a b a' b', length a = d -> length b = d -> length a' = d -> length b' = d ->
  (forall i, (i < d)%nat -> nth i a 0 - nth i b 0 = nth i a' 0 - nth i b' 0) -> dist a b = dist a' b'.
Proof.
  intros a b a' b' La Lb La' Lb' H. unfold dist. f_equal. f_equal. apply (list_eq_nth 0 _ _ d); try (rewrite ConverterProofs.map2_length; congruence).
  intros i Hi. rewrite (nth_map2 _ a b i 0 0 0), (nth_map2 _ a' b' i 0 0 0) by lia. now rewrite H.
Qed.
Lemma dist_move : forall o x, length o = d -> length x = d -> dist (cell_centre B r x) (move o) = dist (cell_centre (world d) r (up x)) o.
Proof.
  intros o x Lo Lx. pose proof (up_length x Lx) as Lu. unfold cell_centre. apply dist_diff; try (rewrite ConverterProofs.map2_length; unfold cell in *; rewrite ?world_length; congruence); auto using move_length.
  intros i Hi. rewrite (nth_map2 _ x B i 0%Z 0 0), (nth_map2 _ (up x) (world d) i 0%Z 0 0) by (unfold cell in *; rewrite ?world_length; lia).
  pose proof (move_cell o i x Lo Lx Hi) as E. lra.
Qed.
Lemma nearest_move : forall g p, 0 < g -> length p = d -> off_borders g (world d) r p -> nearest_cell B r (move p) = down (nearest_cell (world d) r p).
Proof.
  intros g p Hg L H. assert (LN : length (nearest_cell (world d) r p) = d) by (unfold nearest_cell; rewrite ConverterProofs.map2_length; rewrite ?world_length; congruence).
  apply (list_eq_nth 0%Z _ _ d); [unfold nearest_cell; rewrite ConverterProofs.map2_length; rewrite ?move_length; congruence|now apply down_length|].
  intros i Hi. rewrite down_nth by assumption. unfold nearest_cell.
  rewrite (nth_map2 _ (move p) B i 0 0 0%Z), (nth_map2 _ p (world d) i 0 0 0%Z) by (rewrite ?world_length, ?move_length; lia).
  rewrite move_nth, HB, world_nth by assumption.
  replace ((nth i p 0 + nth i D 0 - (IZR (nth i k 0%Z) * r + nth i D 0)) / r) with ((nth i p 0 - 0) / r - IZR (nth i k 0%Z)) by (field; lra).
  apply znearest_shift. intros n E. specialize (H i n ltac:(lia)). rewrite world_nth in H.
  assert (Q : nth i p 0 - (0 + (IZR n + / 2) * r) = 0).
  { replace (nth i p 0) with ((nth i p 0 - 0) / r * r) at 1 by (field; lra). rewrite E. ring. }
  rewrite Q, Rabs_R0 in H. assert (0 < g * r) by now apply Rmult_lt_0_compat. lra.
Qed.

Lemma clear_move : forall M o e, length o = d -> length e = d -> clear_segment M (world d) r o e -> clear_segment M B r (move o) (move e).
Proof.
  intros M o e Lo Le (H1 & H2 & H3 & H4). split; [now apply borders_move|]. split; [now apply borders_move|]. split; [now apply corner_move|].
  intros x u Lx Hu G. rewrite move_length in Lx by assumption. rewrite move_seg, grown_move in G by auto using seg_length'.
  rewrite dist_move by assumption. apply (H4 (up x) u); [|exact Hu|exact G]. rewrite Lo. now apply up_length.
Qed.

Lemma meets_move : forall o e x, length o = d -> length e = d -> length x = d -> (meets B r (move o) (move e) x <-> meets (world d) r o e (up x)).
Proof.
  intros o e x Lo Le Lx. unfold meets. rewrite move_length, up_length by assumption. split; intros [_ (u & Hu & C)]; (split; [congruence|]; exists u; split; [exact Hu|]).
  - rewrite move_seg in C by assumption. apply closed_move in C; auto using seg_length'.
  - rewrite move_seg by assumption. apply closed_move; auto using seg_length'.
Qed.

Lemma manhattan_move : forall a x, length a = d -> length x = d -> manhattan (down a) x = manhattan a (up x).
Proof.
  unfold down, up. intros a x La Lx. rewrite <- LK in La, Lx. clear - La Lx. unfold cell in *. revert a x La Lx.
  induction k as [|z k' IH]; intros [|y a] [|u x]; cbn [length]; intros La Lx; try discriminate; [reflexivity|].
  cbn [map2]. unfold manhattan in *. cbn [map2 fold_right]. rewrite IH by lia. f_equal. lia.
Qed.

Section Segment.
Variables (o e : list R) (M : R).
Hypothesis Lo : length o = d.
Hypothesis Le : length e = d.
Hypothesis CS : clear_segment M (world d) r o e.

Lemma near_o : nearest_cell B r (move o) = down (nearest_cell (world d) r o).
Proof. apply (nearest_move (/ 8)); [lra|exact Lo|apply CS]. Qed.
Lemma near_e : nearest_cell B r (move e) = down (nearest_cell (world d) r e).
Proof. apply (nearest_move (/ 8)); [lra|exact Le|apply CS]. Qed.
Lemma nearest_len : forall p, length p = d -> length (nearest_cell (world d) r p) = d.
Proof. intros p L. unfold nearest_cell. rewrite ConverterProofs.map2_length; rewrite ?world_length; congruence. Qed.
Lemma other_cell : forall x p, length x = d -> length p = d -> (x <> down (nearest_cell (world d) r p) <-> up x <> nearest_cell (world d) r p).
Proof.
  intros x p Lx Lp. split; intros N E; apply N.
  - rewrite <- E. symmetry. now apply down_up.
  - rewrite E. apply up_down. now apply nearest_len.
Qed.
Lemma long_move : forall x, length x = d -> (too_long M B r (move o) (move e) x <-> too_long M (world d) r o e (up x)).
Proof.
  intros x Lx. unfold too_long. rewrite meets_move, near_o, near_e, !other_cell, dist_move by assumption. reflexivity.
Qed.
Lemma long_length : forall y, too_long M (world d) r o e y -> length y = d.
Proof. intros y ((L & _) & _). congruence. Qed.
Lemma passes_move : forall x, length x = d -> (beam_passes M B r (move o) (move e) x <-> beam_passes M (world d) r o e (up x)).
Proof.
  intros x Lx. unfold beam_passes. rewrite meets_move, near_o, near_e, other_cell by assumption. pose proof (nearest_len o Lo) as LN.
  split; intros (H1 & H2 & H3); (split; [exact H1|]; split; [exact H2|]; intros y Y).
  - pose proof (long_length y Y) as Ly. specialize (H3 (down y)). rewrite long_move, up_down, !manhattan_move, up_down in H3 by auto using down_length. now apply H3.
  - assert (Ly : length y = d) by (destruct Y as ((L & _) & _); rewrite move_length in L; congruence).
    rewrite !manhattan_move by assumption. apply H3. now apply long_move.
Qed.
Lemma arrives_move : beam_arrives M B r (move o) (move e) <-> beam_arrives M (world d) r o e.
Proof.
  unfold beam_arrives. split; intros H y Y.
  - pose proof (long_length y Y) as Ly. apply (H (down y)). rewrite long_move, up_down by auto using down_length. exact Y.
  - assert (Ly : length y = d) by (destruct Y as ((L & _) & _); rewrite move_length in L; congruence). apply (H (up y)). now apply long_move.
Qed.
End Segment.
End Shift.
