(** Proofs about directory listings and the directory readers. *)
From Coq Require Import ZArith List Bool Lia Permutation Sorted Strings.Byte.
From Flocq Require Import Core BinarySingleNaN.
From Verif Require Import Base F32 F64 Arith Geom Kitti Spec SpecKitti KittiProofs OxtProofs.
Open Scope Z_scope.

(** ** The order of names *)
Lemma name_leb_before : forall a b, name_leb a b = true <-> name_before a b.
Proof.
  induction a as [|x a IH]; intros b.
  - split; [intros _; left; now exists b|reflexivity].
  - destruct b as [|y b]; cbn [name_leb].
    + split; [discriminate|]. intros [(s & H)|(p & u & v & s & t & H1 & H2 & H3)]; [discriminate H|].
      destruct p; discriminate H2.
    + destruct (Z.ltb_spec (byte_val x) (byte_val y)) as [L|L].
      { split; [intros _|reflexivity]. right. now exists [], x, y, a, b. }
      destruct (Z.ltb_spec (byte_val y) (byte_val x)) as [L'|L'].
      { split; [discriminate|]. intros [(s & H)|(p & u & v & s & t & H1 & H2 & H3)].
        - injection H as -> _. lia.
        - destruct p as [|w p]; injection H1 as -> H1; injection H2 as -> H2; lia. }
      assert (x = y) by (apply byte_val_inj; lia). subst y. rewrite IH. split.
      * intros [(s & ->)|(p & u & v & s & t & -> & -> & H3)]; [left; now exists s|right; now exists (x :: p), u, v, s, t].
      * intros [(s & H)|(p & u & v & s & t & H1 & H2 & H3)].
        -- injection H as ->. left. now exists s.
        -- destruct p as [|w p]; cbn [app] in H1, H2; inversion H1; inversion H2; subst; [lia|].
           right. now exists p, u, v, s, t.
Qed.

Lemma name_leb_refl : forall a, name_leb a a = true.
Proof. induction a as [|x a IH]; [reflexivity|]. cbn [name_leb]. now rewrite Z.ltb_irrefl. Qed.
Lemma name_leb_total : forall a b, name_leb a b = false -> name_leb b a = true.
Proof.
  induction a as [|x a IH]; intros [|y b]; cbn [name_leb]; try (discriminate || reflexivity).
  destruct (Z.ltb_spec (byte_val x) (byte_val y)); [discriminate|].
  destruct (Z.ltb_spec (byte_val y) (byte_val x)); [reflexivity|auto].
Qed.
Lemma name_leb_antisym : forall a b, name_leb a b = true -> name_leb b a = true -> a = b.
Proof.
  induction a as [|x a IH]; intros [|y b]; cbn [name_leb]; try (discriminate || reflexivity).
  destruct (Z.ltb_spec (byte_val x) (byte_val y)), (Z.ltb_spec (byte_val y) (byte_val x)); try discriminate; try lia.
  intros H1 H2. f_equal; [apply byte_val_inj; lia|now apply IH].
Qed.
Lemma name_leb_trans : forall a b c, name_leb a b = true -> name_leb b c = true -> name_leb a c = true.
Proof.
  induction a as [|x a IH]; intros [|y b] [|z c]; cbn [name_leb]; try (discriminate || reflexivity).
  destruct (Z.ltb_spec (byte_val x) (byte_val y)), (Z.ltb_spec (byte_val y) (byte_val x)),
    (Z.ltb_spec (byte_val y) (byte_val z)), (Z.ltb_spec (byte_val z) (byte_val y)),
    (Z.ltb_spec (byte_val x) (byte_val z)), (Z.ltb_spec (byte_val z) (byte_val x)); try discriminate; try lia; auto.
  apply IH.
Qed.

Lemma insert_perm : forall a l, Permutation (insert_name a l) (a :: l).
Proof.
  intros a. induction l as [|b l IH]; [reflexivity|]. cbn [insert_name]. destruct (name_leb a b); [reflexivity|].
  rewrite IH. apply perm_swap.
Qed.
Lemma sort_perm : forall l, Permutation (sort_names l) l.
Proof. induction l as [|a l IH]; [reflexivity|]. cbn [sort_names fold_right]. rewrite insert_perm. now constructor. Qed.

Definition leb_prop (a b : name) : Prop := name_leb a b = true.
Lemma insert_sorted : forall a l, StronglySorted leb_prop l -> StronglySorted leb_prop (insert_name a l).
Proof.
  intros a l. induction l as [|b l IH]; intros H; cbn [insert_name]; [repeat constructor|].
  inversion H as [|? ? H1 H2]; subst. destruct (name_leb a b) eqn:E.
  - constructor; [assumption|]. constructor; [exact E|].
    eapply Forall_impl; [|exact H2]. intros c Hc. unfold leb_prop in *. eapply name_leb_trans; eassumption.
  - constructor; [now apply IH|]. apply name_leb_total in E.
    eapply Permutation_Forall; [symmetry; apply insert_perm|]. now constructor.
Qed.
Lemma sort_sorted : forall l, StronglySorted leb_prop (sort_names l).
Proof. induction l as [|a l IH]; [constructor|]. now apply insert_sorted. Qed.

Lemma sorted_unique : forall l l', StronglySorted leb_prop l -> StronglySorted leb_prop l' -> Permutation l l' -> l = l'.
Proof.
  induction l as [|a l IH]; intros [|b l'] H H' P; auto.
  - apply Permutation_nil in P. congruence.
  - symmetry in P. apply Permutation_nil in P. congruence.
  - apply StronglySorted_inv in H, H'. destruct H as [S1 S2], H' as [S3 S4].
    assert (a = b).
    { assert (Ia : In a (b :: l')) by (eapply Permutation_in; [exact P|now left]).
      assert (Ib : In b (a :: l)) by (eapply Permutation_in; [symmetry; exact P|now left]).
      destruct Ia as [->|Ia]; [reflexivity|]. destruct Ib as [->|Ib]; [reflexivity|].
      rewrite Forall_forall in S2, S4. apply name_leb_antisym; [now apply S2|now apply S4]. }
    subst b. f_equal. apply IH; auto. eapply Permutation_cons_inv. exact P.
Qed.

Lemma sorted_impl : forall (R S : name -> name -> Prop) l, (forall a b, R a b -> S a b) -> StronglySorted R l -> StronglySorted S l.
Proof.
  intros R S l H. induction 1 as [|a l H1 IH H2]; constructor; auto. eapply Forall_impl; [|exact H2]. auto.
Qed.

(** ** The listing *)
Lemma collect_ok : forall (A : Type) (l : list A), collect (map (@IoOk A) l) = IoOk l.
Proof. induction l as [|a l IH]; [reflexivity|]. cbn [map collect iobind]. now rewrite IH. Qed.
Lemma collect_err : forall (A : Type) (pre : list A) e post, collect (map (@IoOk A) pre ++ IoErr e :: post) = IoErr e.
Proof. induction pre as [|a l IH]; intros e post; [reflexivity|]. cbn [map app collect iobind]. now rewrite IH. Qed.
Lemma io_list_cases : forall (A : Type) (l : list (io A)),
  (exists names, l = map (@IoOk A) names) \/ (exists pre e post, l = map (@IoOk A) pre ++ IoErr e :: post).
Proof.
  induction l as [|[a|e] l IH].
  - left. now exists [].
  - destruct IH as [(n & ->)|(pre & e & post & ->)]; [left; now exists (a :: n)|right; now exists (a :: pre), e, post].
  - right. now exists [], e, l.
Qed.

Lemma listing_spec : forall d,
  match listing d with
  | IoErr e => seq_files_in_dir d = IoErr e
  | IoOk entries =>
      (exists names l, entries = map (@IoOk name) names /\ seq_files_in_dir d = IoOk l /\
         Permutation l names /\ StronglySorted name_before l) \/
      (exists pre e post, entries = map (@IoOk name) pre ++ IoErr e :: post /\ seq_files_in_dir d = IoErr e)
  end.
Proof.
  intros d. unfold seq_files_in_dir. destruct (listing d) as [entries|e]; cbn [iobind]; [|reflexivity].
  destruct (io_list_cases name entries) as [(n & ->)|(pre & e & post & ->)].
  - left. exists n, (sort_names n). rewrite collect_ok. repeat split; auto using sort_perm.
    eapply sorted_impl; [|apply sort_sorted]. intros a b. apply name_leb_before.
  - right. exists pre, e, post. now rewrite collect_err.
Qed.

Lemma listing_order : forall d d' names names', listing d = IoOk (map (@IoOk name) names) ->
  listing d' = IoOk (map (@IoOk name) names') -> Permutation names names' -> seq_files_in_dir d = seq_files_in_dir d'.
Proof.
  intros d d' n n' E E' P. unfold seq_files_in_dir. rewrite E, E'. cbn [iobind]. rewrite !collect_ok. cbn [iobind]. f_equal.
  apply sorted_unique; auto using sort_sorted. rewrite !sort_perm. exact P.
Qed.

(** ** Names with indices *)
Lemma decimal_range : forall ds n v, 0 <= n -> decimal n ds = Some v ->
  n * 10 ^ Z.of_nat (length ds) <= v < (n + 1) * 10 ^ Z.of_nat (length ds).
Proof.
  induction ds as [|d ds IH]; intros n v Hn H; cbn [decimal] in H.
  - injection H as <-. cbn. lia.
  - destruct (_ && _) eqn:E; [|discriminate]. apply andb_true_iff in E. rewrite !Z.leb_le in E.
    apply IH in H; [|lia]. cbn [length]. rewrite Nat2Z.inj_succ, Z.pow_succ_r by lia.
    assert (0 < 10 ^ Z.of_nat (length ds)) by (apply Z.pow_pos_nonneg; lia). nia.
Qed.

Lemma decimal_order : forall ds es n v w, length ds = length es -> 0 <= n ->
  decimal n ds = Some v -> decimal n es = Some w ->
  forall ext, name_leb (ds ++ ext) (es ++ ext) = (v <=? w).
Proof.
  induction ds as [|d ds IH]; intros [|e es] n v w Hl Hn Hv Hw ext; try discriminate Hl.
  - cbn in Hv, Hw |- *. injection Hv as <-. injection Hw as <-. now rewrite name_leb_refl, Z.leb_refl.
  - cbn [decimal] in Hv, Hw. destruct (_ && _) eqn:E in Hv; [|discriminate]. destruct (_ && _) eqn:E' in Hw; [|discriminate].
    apply andb_true_iff in E, E'. rewrite !Z.leb_le in E, E'. injection Hl as Hl.
    cbn [app name_leb].
    apply decimal_range in Hv as R1; [|lia]. apply decimal_range in Hw as R2; [|lia]. rewrite <- Hl in R2.
    assert (0 < 10 ^ Z.of_nat (length ds)) by (apply Z.pow_pos_nonneg; lia).
    destruct (Z.ltb_spec (byte_val d) (byte_val e)).
    + symmetry. apply Z.leb_le.
      assert ((10 * n + (byte_val d - 48) + 1) * 10 ^ Z.of_nat (length ds) <= (10 * n + (byte_val e - 48)) * 10 ^ Z.of_nat (length ds))
        by (apply Z.mul_le_mono_nonneg_r; lia). lia.
    + destruct (Z.ltb_spec (byte_val e) (byte_val d)).
      * symmetry. apply Z.leb_gt.
        assert ((10 * n + (byte_val e - 48) + 1) * 10 ^ Z.of_nat (length ds) <= (10 * n + (byte_val d - 48)) * 10 ^ Z.of_nat (length ds))
          by (apply Z.mul_le_mono_nonneg_r; lia). lia.
      * assert (d = e) by (apply byte_val_inj; lia). subst e. apply (IH es (10 * n + (byte_val d - 48)) v w); auto; lia.
Qed.

Lemma index_order : forall k ext a b n m, index_name k ext a n -> index_name k ext b m -> (name_before a b <-> n <= m).
Proof.
  intros k ext a b n m (ds & -> & L1 & D1) (es & -> & L2 & D2).
  rewrite <- name_leb_before, (decimal_order ds es 0 n m) by (auto; congruence || lia). apply Z.leb_le.
Qed.

(** The listing of numbered files is in order of their numbers. *)
Lemma listing_index : forall d k ext names l, listing d = IoOk (map (@IoOk name) names) ->
  Forall (fun nm => exists n, index_name k ext nm n) names -> seq_files_in_dir d = IoOk l ->
  Permutation l names /\ StronglySorted (fun a b => forall n m, index_name k ext a n -> index_name k ext b m -> n <= m) l.
Proof.
  intros d k ext names l E Hn Hs. pose proof (listing_spec d) as H. rewrite E in H.
  destruct H as [(n' & l' & E' & Hs' & P & S)|(pre & e & post & E' & Hs')]; [|congruence].
  assert (l' = l) by congruence. subst l'.
  assert (n' = names). { assert (Hc : collect (map (@IoOk name) names) = collect (map (@IoOk name) n')) by now rewrite E'.
    rewrite !collect_ok in Hc. congruence. } subst n'.
  split; [assumption|]. eapply sorted_impl; [|exact S]. intros a b Hab n m Ha Hb. now apply (index_order k ext a b n m Ha Hb).
Qed.

(** ** Reading all files *)
Section Files.
Context {S A : Type} (step : S -> io bytes -> outcome (io (A * S))) (d : directory).

(** The states before each file and the results. *)
Inductive steps : S -> list name -> list A -> S -> Prop :=
| steps_nil : forall s, steps s [] [] s
| steps_cons : forall s p ps a l s' s'', step s (contents d p) = Ret (IoOk (a, s')) -> steps s' ps l s'' ->
    steps s (p :: ps) (a :: l) s''.

Lemma read_files_ok : forall s ps l s', steps s ps l s' -> read_files step false d s ps = (ps, Ret (IoOk l)).
Proof.
  induction 1 as [|s p ps a l s' s'' H1 H2 IH]; [reflexivity|]. cbn [read_files andb]. rewrite H1, IH. reflexivity.
Qed.
Lemma read_files_err : forall s pre l s' p post e, steps s pre l s' -> step s' (contents d p) = Ret (IoErr e) ->
  read_files step false d s (pre ++ p :: post) = (pre ++ [p], Ret (IoErr e)).
Proof.
  intros s pre l s' p post e H He. induction H as [s|s q ps a l s' s'' H1 H2 IH]; cbn [app read_files andb].
  - now rewrite He.
  - rewrite H1, IH by assumption. reflexivity.
Qed.
Lemma read_files_print : forall s ps, Forall (fun p => utf8_valid p = true) ps ->
  read_files step true d s ps = read_files step false d s ps.
Proof.
  intros s ps H. revert s. induction H as [|p ps Hp H IH]; intros s; [reflexivity|].
  cbn [read_files andb]. rewrite Hp. cbn [negb]. destruct (step s (contents d p)) as [[[a s']|e]| |]; auto. now rewrite IH.
Qed.
(** Only the names of the files opened matter. *)
Lemma read_files_names : forall ps s, let opened := fst (read_files step false d s ps) in
  (Forall is_text opened -> read_files step true d s ps = read_files step false d s ps) /\
  (forall pre p post, opened = pre ++ p :: post -> Forall is_text pre -> ~ is_text p -> read_files step true d s ps = (pre, Panic)).
Proof.
  induction ps as [|p ps IH]; intros s; cbn [read_files andb]; cbv zeta.
  - split; [reflexivity|]. intros [|? ?] ? ? E; discriminate E.
  - destruct (utf8_valid p) eqn:V; cbn [negb].
    + assert (Tp : is_text p) by (apply utf8_text; exact V).
      assert (One : forall pre q post, [p] = pre ++ q :: post -> ~ is_text q -> False).
      { intros [|x pre] q post E N; [injection E as <- <-; contradiction|]. injection E as _ E. destruct pre; discriminate E. }
      destruct (step s (contents d p)) as [[[a s']|e]| |]; cbn [fst]; try (split; [reflexivity|]; intros pre q post E _ N; destruct (One pre q post E N)).
      specialize (IH s'). cbv zeta in IH. destruct (read_files step false d s' ps) as [o r]. cbn [fst] in *. destruct IH as [IH1 IH2]. split.
      * intros F. inversion_clear F. now rewrite IH1.
      * intros [|x pre] q post E F N; [injection E as <- _; contradiction|]. injection E as <- E. inversion_clear F. now rewrite (IH2 pre q post E).
    + assert (Tp : ~ is_text p) by (intro Q; apply utf8_text in Q; congruence).
      assert (Q : exists l, fst (match step s (contents d p) with
        | Ret (IoOk (a, s')) => let (opened, r) := read_files step false d s' ps in
            (p :: opened, do l <- r; Ret (match l with IoOk l => IoOk (a :: l) | IoErr e => IoErr e end))
        | Ret (IoErr e) => ([p], Ret (IoErr e)) | Panic => ([p], Panic) | NoFuel => ([p], NoFuel) end) = p :: l).
      { destruct (step s (contents d p)) as [[[a s']|e]| |]; try (eexists; reflexivity). destruct (read_files step false d s' ps). eexists. reflexivity. }
      destruct Q as [l Q]. rewrite Q. split.
      * intros F. inversion_clear F. contradiction.
      * intros [|x pre] q post E F N; [reflexivity|]. injection E as <- E. inversion_clear F. contradiction.
Qed.
End Files.

Lemma cloud_read_cases : forall bo c, exists r, cloud_read bo c = Ret r.
Proof.
  intros bo [b|e].
  - destruct (Nat.eq_dec (length b mod 16) 0) as [H|H].
    + eexists. now apply cloud_read_ok.
    + eexists. now apply (proj1 (cloud_read_spec bo b)).
  - now exists (IoErr e).
Qed.

Definition cloud_step (bo : byte_order) : unit -> io bytes -> outcome (io (matrix * unit)) :=
  fun _ c => do r <- cloud_read bo c; Ret (match r with IoOk m => IoOk (m, tt) | IoErr e => IoErr e end).

Lemma cloud_steps : forall bo d ps ms, Forall2 (fun p m => cloud_read bo (contents d p) = Ret (IoOk m)) ps ms ->
  steps (cloud_step bo) d tt ps ms tt.
Proof.
  intros bo d ps ms H. induction H as [|p m ps ms H1 H2 IH]; [constructor|].
  econstructor; [|exact IH]. unfold cloud_step. rewrite H1. reflexivity.
Qed.

Lemma cloud_dir_spec : forall bo d,
  match seq_files_in_dir d with
  | IoErr e => cloud_read_from_dir bo d false = ([], Ret (IoErr e))
  | IoOk paths =>
      (exists ms, Forall2 (fun p m => cloud_read bo (contents d p) = Ret (IoOk m)) paths ms /\
         cloud_read_from_dir bo d false = (paths, Ret (IoOk ms))) \/
      (exists pre p post ms e, paths = pre ++ p :: post /\
         Forall2 (fun p m => cloud_read bo (contents d p) = Ret (IoOk m)) pre ms /\
         cloud_read bo (contents d p) = Ret (IoErr e) /\
         cloud_read_from_dir bo d false = (pre ++ [p], Ret (IoErr e)))
  end.
Proof.
  intros bo d. unfold cloud_read_from_dir. fold (cloud_step bo). destruct (seq_files_in_dir d) as [paths|e]; [|reflexivity].
  assert (H : (exists ms, Forall2 (fun p m => cloud_read bo (contents d p) = Ret (IoOk m)) paths ms) \/
    (exists pre p post ms e, paths = pre ++ p :: post /\
         Forall2 (fun p m => cloud_read bo (contents d p) = Ret (IoOk m)) pre ms /\
         cloud_read bo (contents d p) = Ret (IoErr e))).
  { induction paths as [|p ps IH]; [left; exists []; constructor|].
    destruct (cloud_read_cases bo (contents d p)) as ([m|e] & E).
    - destruct IH as [(ms & H)|(pre & q & post & ms & e & -> & H & He)].
      + left. exists (m :: ms). now constructor.
      + right. exists (p :: pre), q, post, (m :: ms), e. repeat split; auto.
    - right. exists [], p, ps, [], e. repeat split; auto. }
  destruct H as [(ms & H)|(pre & p & post & ms & e & -> & H & He)].
  - left. exists ms. split; [assumption|]. eapply read_files_ok, cloud_steps, H.
  - right. exists pre, p, post, ms, e. repeat split; auto.
    eapply read_files_err; [apply cloud_steps, H|]. unfold cloud_step. now rewrite He.
Qed.

Section OxtDir.
Context {Rot : Type} (env : oxt_env Rot) (d : directory).

Definition oxt_step : option gps -> io bytes -> outcome (io ((translation * Rot) * option gps)) :=
  fun gps_origin c => Ret (match oxt_read env c gps_origin with
     | IoOk (pose, new_gps_origin) => IoOk (pose, Some new_gps_origin)
     | IoErr e => IoErr e
     end).

Definition holds (p : name) (r : gps * Rot) : Prop := exists b, contents d p = IoOk b /\ is_record env b (fst r) (snd r).
Definition pose_from (o : gps) (r : gps * Rot) : translation * Rot := (gps_to_meters (cos64 env) (fst r) o, snd r).
Definition poses (rs : list (gps * Rot)) : list (translation * Rot) :=
  match rs with [] => [] | r0 :: rest => (zero_translation, snd r0) :: map (pose_from (fst r0)) rest end.

Lemma oxt_steps_some : forall o ps rs, Forall2 holds ps rs -> steps oxt_step d (Some o) ps (map (pose_from o) rs) (Some o).
Proof.
  intros o ps rs H. induction H as [|p [g rot] ps rs (b & Hb & Hr) H IH]; [constructor|].
  cbn [map]. econstructor; [|exact IH]. unfold oxt_step. rewrite Hb. cbn [fst snd] in Hr.
  rewrite (record_read env b g rot (Some o) Hr). reflexivity.
Qed.
Lemma oxt_steps : forall ps rs, Forall2 holds ps rs ->
  steps oxt_step d None ps (poses rs) (match rs with [] => None | r :: _ => Some (fst r) end).
Proof.
  intros ps rs H. destruct H as [|p [g rot] ps rs (b & Hb & Hr) H]; [constructor|].
  cbn [poses fst snd] in *. econstructor; [|apply oxt_steps_some; exact H]. unfold oxt_step. rewrite Hb.
  rewrite (record_read env b g rot None Hr). reflexivity.
Qed.

Lemma oxt_err_origin : forall c o o' e, oxt_read env c o = IoErr e -> oxt_read env c o' = IoErr e.
Proof.
  intros c o o' e H. pose proof (read_origin env c o o') as R. rewrite H in R.
  destruct (oxt_read env c o') as [[[? ?] ?]|e']; [contradiction|congruence].
Qed.

Lemma oxt_dir_spec :
  match seq_files_in_dir d with
  | IoErr e => oxt_read_from_dir env d false = ([], Ret (IoErr e))
  | IoOk paths =>
      (exists rs, Forall2 holds paths rs /\ oxt_read_from_dir env d false = (paths, Ret (IoOk (poses rs)))) \/
      (exists pre p post rs e, paths = pre ++ p :: post /\ Forall2 holds pre rs /\
         (forall origin, oxt_read env (contents d p) origin = IoErr e) /\
         oxt_read_from_dir env d false = (pre ++ [p], Ret (IoErr e)))
  end.
Proof.
  unfold oxt_read_from_dir. fold oxt_step. destruct (seq_files_in_dir d) as [paths|e]; [|reflexivity].
  assert (H : (exists rs, Forall2 holds paths rs) \/
    (exists pre p post rs e, paths = pre ++ p :: post /\ Forall2 holds pre rs /\ (forall origin, oxt_read env (contents d p) origin = IoErr e))).
  { induction paths as [|p ps IH]; [left; exists []; constructor|].
    destruct (oxt_read env (contents d p) None) as [r|e] eqn:E.
    - destruct (contents d p) as [b|e] eqn:Ec; [|discriminate E].
      destruct (read_record env b None r E) as (g & rot & Hr).
      assert (Hp : holds p (g, rot)) by now exists b.
      destruct IH as [(rs & H)|(pre & q & post & rs & e & -> & H & He)].
      + left. exists ((g, rot) :: rs). now constructor.
      + right. exists (p :: pre), q, post, ((g, rot) :: rs), e. repeat split; auto.
    - right. exists [], p, ps, [], e. repeat split; auto. intros o. eapply oxt_err_origin, E. }
  destruct H as [(rs & H)|(pre & p & post & rs & e & -> & H & He)].
  - left. exists rs. split; [assumption|]. eapply read_files_ok, oxt_steps, H.
  - right. exists pre, p, post, rs, e. repeat split; auto.
    eapply read_files_err; [apply oxt_steps, H|]. unfold oxt_step. now rewrite He.
Qed.

(** Poses of a readable directory. *)
Lemma oxt_dir_poses : forall paths rs, seq_files_in_dir d = IoOk paths ->
  Forall2 (fun p r => exists b, contents d p = IoOk b /\ is_record env b (fst r) (snd r)) paths rs ->
  oxt_read_from_dir env d false = (paths, Ret (IoOk
    match rs with
    | [] => []
    | (g0, rot0) :: rest => ((f0, f0, f0), rot0) :: map (fun r => (gps_to_meters (cos64 env) (fst r) g0, snd r)) rest
    end)).
Proof.
  intros paths rs E H. unfold oxt_read_from_dir. rewrite E. fold oxt_step.
  rewrite (read_files_ok _ _ _ _ _ _ (oxt_steps paths rs H)). destruct rs as [|[g0 rot0] rest]; reflexivity.
Qed.
End OxtDir.

(** ** Printing *)
Lemma cloud_print : forall bo d paths, seq_files_in_dir d = IoOk paths -> Forall is_text paths ->
  cloud_read_from_dir bo d true = cloud_read_from_dir bo d false.
Proof.
  intros bo d paths E H. unfold cloud_read_from_dir. rewrite E. apply read_files_print.
  eapply Forall_impl; [|exact H]. intros p. apply utf8_text.
Qed.
Lemma oxt_print : forall (Rot : Type) (env : oxt_env Rot) d paths, seq_files_in_dir d = IoOk paths -> Forall is_text paths ->
  oxt_read_from_dir env d true = oxt_read_from_dir env d false.
Proof.
  intros Rot env d paths E H. unfold oxt_read_from_dir. rewrite E. apply read_files_print.
  eapply Forall_impl; [|exact H]. intros p. apply utf8_text.
Qed.
Lemma cloud_print_exact : forall bo d, let opened := fst (cloud_read_from_dir bo d false) in
  (Forall is_text opened -> cloud_read_from_dir bo d true = cloud_read_from_dir bo d false) /\
  (forall pre p post, opened = pre ++ p :: post -> Forall is_text pre -> ~ is_text p -> cloud_read_from_dir bo d true = (pre, Panic)).
Proof.
  intros bo d. unfold cloud_read_from_dir. destruct (seq_files_in_dir d) as [ps|e]; [apply read_files_names|].
  cbv zeta. split; [reflexivity|]. intros [|? ?] ? ? E; discriminate E.
Qed.
Lemma oxt_print_exact : forall (Rot : Type) (env : oxt_env Rot) d, let opened := fst (oxt_read_from_dir env d false) in
  (Forall is_text opened -> oxt_read_from_dir env d true = oxt_read_from_dir env d false) /\
  (forall pre p post, opened = pre ++ p :: post -> Forall is_text pre -> ~ is_text p -> oxt_read_from_dir env d true = (pre, Panic)).
Proof.
  intros Rot env d. unfold oxt_read_from_dir. destruct (seq_files_in_dir d) as [ps|e]; [apply read_files_names|].
  cbv zeta. split; [reflexivity|]. intros [|? ?] ? ? E; discriminate E.
Qed.

(** A directory whose first file (in order) has a name that is not text: printing panics. *)
Lemma cloud_print_panics : forall bo d p ps, seq_files_in_dir d = IoOk (p :: ps) -> ~ is_text p ->
  cloud_read_from_dir bo d true = ([], Panic).
Proof.
  intros bo d p ps E H. unfold cloud_read_from_dir. rewrite E. cbn [read_files andb].
  destruct (utf8_valid p) eqn:V; [now apply utf8_text in V|]. reflexivity.
Qed.

Lemma Forall2_len : forall (A B : Type) (R : A -> B -> Prop) l m, Forall2 R l m -> length l = length m.
Proof. induction 1; cbn; auto. Qed.

Lemma oxt_dir_cases : forall (Rot : Type) (env : oxt_env Rot) d,
  let holds p (r : gps * Rot) := exists b, contents d p = IoOk b /\ is_record env b (fst r) (snd r) in
  match seq_files_in_dir d with
  | IoErr e => oxt_read_from_dir env d false = ([], Ret (IoErr e))
  | IoOk paths =>
      (exists rs, Forall2 holds paths rs /\ exists poses, length poses = length paths /\
         map snd poses = map snd rs /\ oxt_read_from_dir env d false = (paths, Ret (IoOk poses))) \/
      (exists pre p post rs e, paths = pre ++ p :: post /\ Forall2 holds pre rs /\
         (forall origin, oxt_read env (contents d p) origin = IoErr e) /\
         oxt_read_from_dir env d false = (pre ++ [p], Ret (IoErr e)))
  end.
Proof.
  intros Rot env d. cbv zeta. pose proof (oxt_dir_spec env d) as H. destruct (seq_files_in_dir d) as [paths|e]; [|exact H].
  destruct H as [(rs & F & H)|H]; [left|right; exact H].
  exists rs. split; [exact F|]. exists (poses env rs). apply Forall2_len in F. repeat split; [| |exact H].
  - rewrite F. destruct rs as [|r rs]; cbn [poses length]; [reflexivity|]. now rewrite map_length.
  - destruct rs as [|r rs]; cbn [poses map snd]; [reflexivity|]. f_equal. rewrite map_map. reflexivity.
Qed.
