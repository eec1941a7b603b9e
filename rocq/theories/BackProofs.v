(** C90: a ray and the ray back. *)
From Coq Require Import ZArith List Bool Reals Lra Lia Psatz.
From Flocq Require Import Core.
From Verif Require Import Base F32 Arith Geom RayCaster Spec SpecBack RayProofs CastProofs IdealRay.
Open Scope R_scope.

Lemma manhattan_sym : forall a b, manhattan a b = manhattan b a.
Proof. unfold manhattan. induction a as [|x a IH]; intros [|y b]; cbn; try reflexivity. rewrite IH. f_equal. lia. Qed.
Lemma between_sym : forall a b x, length a = length b -> between a b x -> between b a x.
Proof. intros a b x L [H K]. split; [congruence|]. intros i Hi. rewrite <- L in Hi. specialize (K i Hi). lia. Qed.
Lemma between_sum : forall a b x, length a = length b -> between a b x -> (manhattan a x + manhattan x b = manhattan a b)%Z.
Proof.
  unfold manhattan. induction a as [|y a IH]; intros [|z b] [|v x] L [H K]; cbn in L, H; try discriminate; [reflexivity|]. cbn [map2 fold_right].
  assert (Q := IH b x ltac:(lia)). specialize (K 0%nat) as K0. cbn [length nth] in K0. specialize (K0 ltac:(lia)).
  assert (B : between a b x). { split; [lia|]. intros i Hi. specialize (K (Datatypes.S i)). cbn [length nth] in K. apply K. lia. }
  specialize (Q B). lia.
Qed.

Lemma between_rest : forall a b x k, length a = length b -> between a b x -> manhattan a x = (manhattan a b - k)%Z -> manhattan x b = k.
Proof. intros a b x k L B M. pose proof (between_sum a b x L B). lia. Qed.

(** Two cells at the same distance from the end are the same, or one is ahead on one axis and the other on another. *)
Lemma differ : forall a b x y, length a = length b -> between a b x -> between a b y -> manhattan x b = manhattan y b -> x <> y ->
  exists i j, (i < length a)%nat /\ (j < length a)%nat /\
    (Z.abs (nth i x 0%Z - nth i b 0%Z) < Z.abs (nth i y 0%Z - nth i b 0%Z))%Z /\ (Z.abs (nth j y 0%Z - nth j b 0%Z) < Z.abs (nth j x 0%Z - nth j b 0%Z))%Z.
Proof.
  assert (W : forall a b x y, length a = length b -> between a b x -> between a b y -> (manhattan x b <= manhattan y b)%Z -> x <> y ->
    exists i, (i < length a)%nat /\ (Z.abs (nth i x 0%Z - nth i b 0%Z) < Z.abs (nth i y 0%Z - nth i b 0%Z))%Z).
  { unfold manhattan. induction a as [|c a IH]; intros [|z b] [|v x] [|w y] L [H K] [H' K'] M N; cbn in L, H, H'; try discriminate; [congruence|]. cbn [map2 fold_right] in M.
    pose proof (K 0%nat ltac:(cbn; lia)) as K0. pose proof (K' 0%nat ltac:(cbn; lia)) as K0'. cbn [nth] in K0, K0'.
    destruct (Z_lt_le_dec (Z.abs (v - z)) (Z.abs (w - z))) as [A|A]; [exists 0%nat; split; [cbn; lia|exact A]|].
    destruct (list_eq_dec Z.eq_dec x y) as [->|NE].
    - assert (Z.abs (v - z) = Z.abs (w - z)) by lia. exfalso. apply N. f_equal. lia.
    - destruct (IH b x y) as (i & Hi & D); try lia.
      + split; [lia|]. intros i Hi. apply (K (Datatypes.S i)). cbn. lia.
      + split; [lia|]. intros i Hi. apply (K' (Datatypes.S i)). cbn. lia.
      + exact NE.
      + exists (Datatypes.S i). split; [cbn; lia|exact D]. }
  intros a b x y L Bx By M N. destruct (W a b x y L Bx By ltac:(lia) N) as (i & Hi & Di). destruct (W a b y x L By Bx ltac:(lia) (not_eq_sym N)) as (j & Hj & Dj).
  exists i, j. auto.
Qed.

Section Unique.
Context (d : nat) (Hd : (d = 2 \/ d = 3)%nat) (o e b : list R) (r : R) (Lo : length o = d) (Le : length e = d) (Lb : length b = d) (Hr : 0 < r).
Context (NC : no_corner b r o e).
Let oc := nearest_cell b r o.
Let ec := nearest_cell b r e.

Lemma seg_nth : forall u i, (i < d)%nat -> nth i (seg o e u) 0 = nth i o 0 + u * (nth i e 0 - nth i o 0).
Proof. intros u i Hi. exact (nth_seg d Hd o e b Lo Le Lb u i Hi). Qed.

(** A cell that is ahead of another one touched later: both are touched at the same moment, on the border between them. *)
Lemma ahead : forall x y u v i, length x = d -> length y = d -> between oc ec x -> between oc ec y -> (i < d)%nat -> u <= v ->
  in_closed_cell b r x (seg o e u) -> in_closed_cell b r y (seg o e v) ->
  (Z.abs (nth i x 0%Z - nth i ec 0%Z) < Z.abs (nth i y 0%Z - nth i ec 0%Z))%Z ->
  u = v /\ nth i o 0 <> nth i e 0 /\ on_border (nth i b 0) r (nth i (seg o e u) 0).
Proof.
  intros x y u v i Lx Ly [_ Bx] [_ By] Hi Huv Cx Cy D.
  assert (Lc : length oc = d) by (unfold oc, nearest_cell; now apply map2_len).
  specialize (Bx i ltac:(lia)). specialize (By i ltac:(lia)). specialize (Cx i ltac:(lia)). specialize (Cy i ltac:(lia)).
  rewrite seg_nth in * by assumption. apply Rabs_le_inv in Cx, Cy.
  destruct (nearest_mono d Hd o e b r Lo Le Lb Hr i Hi) as (M0 & M1 & M2). fold oc ec in M0, M1, M2.
  set (X := nth i x 0%Z) in *. set (Y := nth i y 0%Z) in *. set (P := nth i o 0) in *. set (Q := nth i e 0) in *. set (B := nth i b 0) in *.
  destruct (sgn_cases (Q - P)) as [[S A]|[[S A]|[S A]]].
  - specialize (M0 S). lia.
  - specialize (M1 S). assert (XY : (Y + 1 <= X)%Z) by lia. apply IZR_le in XY. rewrite plus_IZR in XY.
    assert (E1 : u * (Q - P) <= v * (Q - P)) by nra. assert (E2 : (IZR X - IZR Y) * r >= r) by nra.
    assert (EQ : P + u * (Q - P) = B + (IZR Y + / 2) * r) by lra. assert (EQ' : u * (Q - P) = v * (Q - P)) by lra.
    split; [nra|]. split; [lra|]. now exists Y.
  - specialize (M2 S). assert (XY : (X + 1 <= Y)%Z) by lia. apply IZR_le in XY. rewrite plus_IZR in XY.
    assert (E1 : v * (Q - P) <= u * (Q - P)) by nra. assert (E2 : (IZR Y - IZR X) * r >= r) by nra.
    assert (EQ : P + u * (Q - P) = B + (IZR X + / 2) * r) by lra. assert (EQ' : u * (Q - P) = v * (Q - P)) by lra.
    split; [nra|]. split; [lra|]. now exists X.
Qed.

Lemma one_place : forall x y u v, between oc ec x -> between oc ec y -> manhattan x ec = manhattan y ec -> 0 <= u <= 1 -> 0 <= v <= 1 ->
  in_closed_cell b r x (seg o e u) -> in_closed_cell b r y (seg o e v) -> x = y.
Proof.
  intros x y u v Bx By M Hu Hv Cx Cy.
  assert (Lc : length oc = d) by (unfold oc, nearest_cell; now apply map2_len). assert (Lc' : length ec = d) by (unfold ec, nearest_cell; now apply map2_len).
  assert (Lx : length x = d) by (destruct Bx; lia). assert (Ly : length y = d) by (destruct By; lia).
  destruct (list_eq_dec Z.eq_dec x y) as [E|N]; [exact E|exfalso].
  destruct (differ oc ec x y ltac:(congruence) Bx By M N) as (i & j & Hi & Hj & Di & Dj). rewrite Lc in Hi, Hj.
  assert (NE : i <> j) by (intros ->; lia).
  destruct (Rle_or_lt u v) as [UV|UV].
  - destruct (ahead x y u v i Lx Ly Bx By Hi UV Cx Cy Di) as (<- & Oi & Bi).
    destruct (ahead y x u u j Ly Lx By Bx Hj ltac:(lra) Cy Cx Dj) as (_ & Oj & Bj).
    exact (NC u i j Hu ltac:(lia) ltac:(lia) NE Oi Oj Bi Bj).
  - destruct (ahead y x v u j Ly Lx By Bx Hj ltac:(lra) Cy Cx Dj) as (-> & Oj & Bj).
    destruct (ahead x y u u i Lx Ly Bx By Hi ltac:(lra) Cx Cy Di) as (_ & Oi & Bi).
    exact (NC u i j Hu ltac:(lia) ltac:(lia) NE Oi Oj Bi Bj).
Qed.
End Unique.

Lemma seg_back : forall o e u, length o = length e -> seg e o u = seg o e (1 - u).
Proof. unfold seg. induction o as [|x o IH]; intros [|y e] u L; cbn in *; try discriminate; [reflexivity|]. f_equal; [ring|]. apply IH. lia. Qed.

Lemma back : forall d (o e b : list R) r, (d = 2 \/ d = 3)%nat -> length o = d -> length e = d -> length b = d -> 0 < r ->
  ends_inside b r o e -> ends_inside b r e o -> no_corner b r o e ->
  let oc := nearest_cell b r o in let ec := nearest_cell b r e in cells_in_isize oc -> cells_in_isize ec ->
  forall fuel m, m <= 0 -> (manhattan oc ec <= Z.of_nat fuel)%Z ->
  exists path path', cast_ray RealA fuel (map Fin o) (map Fin e) (map Fin b) (Fin r) (Fin m) = Ret (path, Some ec) /\
    cast_ray RealA fuel (map Fin e) (map Fin o) (map Fin b) (Fin r) (Fin m) = Ret (path', Some oc) /\ path' ++ [oc] = rev (path ++ [ec]).
Proof.
  intros d o e b r Hd Lo Le Lb Hr I1 I2 NC oc ec Io Ie fuel m Hm F.
  destruct (ideal_places_cast d Hd o e b r Lo Le Lb Hr I1 Io Ie fuel m Hm F) as (path & C & L & P).
  assert (F' : (manhattan (nearest_cell b r e) (nearest_cell b r o) <= Z.of_nat fuel)%Z) by (rewrite manhattan_sym; exact F).
  destruct (ideal_places_cast d Hd e o b r Le Lo Lb Hr I2 Ie Io fuel m Hm F') as (path' & C' & L' & P'). fold oc ec in C, L, P, C', L', P'.
  exists path, path'. split; [exact C|]. split; [exact C'|].
  assert (LL : length (path' ++ [oc]) = length (path ++ [ec])). { rewrite !app_length. rewrite manhattan_sym in L'. cbn. lia. }
  assert (Loc : length oc = d) by (unfold oc, nearest_cell; now apply map2_len). assert (Lec : length ec = d) by (unfold ec, nearest_cell; now apply map2_len).
  apply (nth_ext _ _ [] []); [rewrite rev_length; exact LL|]. intros k Hk. assert (Hk' : (k < length (path ++ [ec]))%nat) by exact (eq_ind _ (fun n => (k < n)%nat) Hk _ LL). rewrite rev_nth by exact Hk'. set (n := (length (path ++ [ec]) - Datatypes.S k)%nat).
  assert (Hn : (n < length (path ++ [ec]))%nat) by lia.
  destruct (P n _ (nth_error_nth' _ [] Hn)) as (B1 & M1 & u & Hu & T1). destruct (P' k _ (nth_error_nth' _ [] Hk)) as (B2 & M2 & v & Hv & T2).
  fold oc ec in B1, M1, B2, M2. rewrite seg_back in T2 by congruence.
  apply between_sym in B2; [|congruence]. symmetry.
  apply (one_place d Hd o e b r Lo Le Lb Hr NC _ _ u (1 - v)); try assumption; [|lra].
  fold ec. rewrite (manhattan_sym (nth k _ _) oc) in M2. rewrite (manhattan_sym ec oc) in M2.
  assert (M3 : manhattan (nth k (path' ++ [oc]) []) ec = Z.of_nat k) by (apply (between_rest oc ec); [congruence|exact B2|exact M2]).
  transitivity (manhattan oc ec - Z.of_nat n)%Z; [exact M1|]. symmetry. transitivity (Z.of_nat k); [exact M3|]. unfold n. rewrite app_length in *. cbn [length] in *. lia.
Qed.
