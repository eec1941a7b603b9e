(** What main prepares before the window opens. *)
From Coq Require Import ZArith List Bool Reals Lra Lia Permutation Sorted.
From Flocq Require Import Core BinarySingleNaN.
From Verif Require Import Base F32 F64 Arith Geom Kitti Spec SpecKitti KittiProofs OxtProofs DirProofs Viz SpecViz VizProofs MainProofs Pose SpecPose SpecMain PoseProofs CloudProofs.
Open Scope Z_scope.

Lemma order_listing : forall d names, in_name_order d names <-> seq_files_in_dir d = IoOk names.
Proof.
  intros d names. pose proof (listing_spec d) as L. split.
  - intros (listed & E & P & S). rewrite E in L. destruct L as [(ns & l & E1 & E2 & P2 & S2)|(pre & e & post & E1 & _)].
    + rewrite E2. f_equal. assert (ns = listed) as ->. { assert (I : forall a b : list name, map (@IoOk name) a = map (@IoOk name) b -> a = b). { induction a as [|x a IH]; intros [|y b] H; try discriminate; [reflexivity|]. cbn [map] in H. injection H as -> H. f_equal. now apply IH. } now apply I. }
      apply sorted_unique; [| |now rewrite P2].
      * apply sorted_impl with (2 := S2). intros a b. apply name_leb_before.
      * apply sorted_impl with (2 := S). intros a b. apply name_leb_before.
    + exfalso. assert (K : In (@IoErr name e) (map (@IoOk name) listed)) by (rewrite E1; apply in_elt). apply in_map_iff in K. destruct K as (x & K & _). discriminate K.
  - intro E. destruct (listing d) as [entries|e] eqn:EL; [|congruence]. destruct L as [(ns & l & E1 & E2 & P2 & S2)|(pre & e & post & E1 & E2)]; [|congruence].
    rewrite E2 in E. injection E as ->. exists ns. subst entries. split; [assumption|]. split; assumption.
Qed.

Lemma skip_skip : forall (A : Type) (l : list A) a b, skipn a (skipn b l) = skipn (b + a) l.
Proof. intros A l a b. revert l. induction b as [|b IH]; intros l; [reflexivity|]. destruct l as [|x l]; [now rewrite skipn_nil|apply IH]. Qed.
Lemma chunks : forall (A : Type) r n (l : list A), length l = (r * n)%nat ->
  concat (map (fun j => firstn r (skipn (j * r) l)) (seq 0 n)) = l.
Proof.
  intros A r n. induction n as [|n IH]; intros l L.
  - rewrite Nat.mul_0_r in L. destruct l; [reflexivity|discriminate L].
  - cbn [seq map concat]. rewrite Nat.mul_0_l. cbn [skipn]. transitivity (firstn r l ++ skipn r l); [f_equal|apply firstn_skipn].
    rewrite <- seq_shift, map_map. rewrite <- (IH (skipn r l)) by (rewrite skipn_length, L; lia). f_equal. apply map_ext. intro j.
    rewrite skip_skip. f_equal.
Qed.
Lemma matrix_points_inj : forall m m', matrix_ok m -> matrix_ok m' -> nrows m = nrows m' -> pc_points m = pc_points m' -> m = m'.
Proof.
  intros m m' O O' N P. assert (C : ncols m = ncols m'). { apply (f_equal (@length point)) in P. unfold pc_points in P. now rewrite !map_length, !seq_length in P. }
  assert (D : mdata m = mdata m'). { rewrite <- (chunks _ (nrows m) (ncols m) (mdata m) O), <- (chunks _ (nrows m') (ncols m') (mdata m') O'). f_equal. exact P. }
  destruct m, m'. cbn in *. congruence.
Qed.

Section Main.
Context (s : system).

Definition values_of (v : oxt) : gps * quaternion F32A := (oxt_gps v, rotation s v).

Lemma file_record : forall d n v, oxt_file s d n v -> exists b, contents d n = IoOk b /\ is_record (sys_env s) b (oxt_gps v) (rotation s v).
Proof.
  intros d n v (b & fs & C & T & F & L & P0 & P1 & P2 & P3 & P4 & P5). exists b. split; [assumption|]. split; [assumption|].
  destruct fs as [|g0 [|g1 [|g2 [|g3 [|g4 [|g5 more]]]]]]; cbn [length] in L; try lia. cbn [nth] in *.
  do 13 eexists. split; [exact F|]. repeat split; eassumption.
Qed.
Lemma record_file : forall d n b g rot, contents d n = IoOk b -> is_record (sys_env s) b g rot ->
  exists v, oxt_file s d n v /\ g = oxt_gps v /\ rot = rotation s v.
Proof.
  intros d n b g rot C (T & g0 & g1 & g2 & g3 & g4 & g5 & more & lat & lon & alt & roll & pitch & yaw & F & P0 & P1 & P2 & P3 & P4 & P5 & -> & ->).
  exists (mkOxt lat lon alt roll pitch yaw). split; [|split; reflexivity].
  exists b, (g0 :: g1 :: g2 :: g3 :: g4 :: g5 :: more). cbn [length nth]. repeat split; try assumption; try (apply F). lia.
Qed.
Lemma files_records : forall d names rs, Forall2 (holds (sys_env s) d) names rs -> exists vs, Forall2 (oxt_file s d) names vs /\ rs = map values_of vs.
Proof.
  intros d names rs H. induction H as [|n [g rot] names rs (b & C & R) H (vs & IH & ->)]; [exists []; split; [constructor|reflexivity]|].
  destruct (record_file d n b g rot C R) as (v & F & -> & ->). exists (v :: vs). split; [now constructor|reflexivity].
Qed.
Lemma files_hold : forall d names vs, Forall2 (oxt_file s d) names vs -> Forall2 (holds (sys_env s) d) names (map values_of vs).
Proof. intros d names vs H. induction H; cbn [map]; constructor; [|assumption]. destruct (file_record _ _ _ H) as (b & C & R). now exists b. Qed.

Lemma cloud_file_read : forall d n m, cloud_file s d n m <-> cloud_read (sys_order s) (contents d n) = Ret (IoOk m).
Proof.
  intros d n m. split.
  - intros (b & C & L & O & N & P). rewrite C. destruct (proj2 (cloud_read_spec (sys_order s) b) L) as (m' & E & O' & N' & P'). etransitivity; [exact E|]. do 2 f_equal.
    apply matrix_points_inj; try assumption; [congruence|]. rewrite P, P'. apply map_ext. intro i. cbn [map]. rewrite Nat.add_0_r. reflexivity.
  - intro E. destruct (contents d n) as [b|e] eqn:C; [|discriminate E]. exists b. split; [exact C|].
    destruct (Nat.eq_dec (length b mod 16) 0) as [L|L]; [|pose proof (eq_trans (eq_sym (proj1 (cloud_read_spec (sys_order s) b) L)) E) as E'; discriminate E'].
    destruct (proj2 (cloud_read_spec (sys_order s) b) L) as (m' & E' & O' & N' & P'). pose proof (eq_trans (eq_sym E') E) as E0. injection E0 as ->.
    split; [assumption|]. split; [assumption|]. split; [assumption|]. rewrite P'. apply map_ext. intro i. cbn [map]. rewrite Nat.add_0_r. reflexivity.
Qed.

Lemma drive_unique : forall f vs ms vs' ms', drive s f vs ms -> drive s f vs' ms' -> vs = vs' /\ ms = ms'.
Proof.
  intros f vs ms vs' ms' (_ & _ & _ & (n1 & O1 & F1) & (n2 & O2 & F2)) (_ & _ & _ & (n1' & O1' & F1') & (n2' & O2' & F2')).
  apply order_listing in O1, O2, O1', O2'. assert (n1' = n1) by congruence. assert (n2' = n2) by congruence. subst n1' n2'. clear O1 O2 O1' O2'. split.
  - revert vs' F1'. induction F1 as [|n v ns vs H F1 IH]; intros vs' G; inversion G as [|n' v' ns' vs0 H' G0]; subst; [reflexivity|]. f_equal; [|now apply IH].
    destruct H as (b & fs & C & T & K & L & P0 & P1 & P2 & P3 & P4 & P5). destruct H' as (b' & fs' & C' & T' & K' & L' & Q0 & Q1 & Q2 & Q3 & Q4 & Q5).
    assert (b' = b) by congruence. subst b'. apply fields_unique in K, K'. subst fs fs'. destruct v, v'. cbn in *. congruence.
  - revert ms' F2'. induction F2 as [|n v ns vs0 H F2 IH]; intros ms' G; inversion G as [|n' v' ns' vs1 H' G0]; subst; [reflexivity|]. f_equal; [|now apply IH].
    apply cloud_file_read in H, H'. congruence.
Qed.

(** Frames *)
Definition frames (vs : list oxt) : list pose := poses (sys_env s) (map values_of vs).
Lemma frames_nth : forall vs k v, nth_error vs k = Some v -> nth_error (frames vs) k = Some (position s vs k v, rotation s v).
Proof.
  intros [|v0 vs] k v H; [destruct k; discriminate H|]. unfold frames. cbn [map poses values_of fst snd]. destruct k as [|k]; cbn [nth_error] in *.
  - injection H as ->. reflexivity.
  - rewrite map_map. rewrite nth_error_map, H. reflexivity.
Qed.
Lemma frames_length : forall vs, length (frames vs) = length vs.
Proof. intros [|v vs]; [reflexivity|]. unfold frames. cbn [map poses length]. now rewrite !map_length. Qed.

Lemma oxts_read : forall d names vs, in_name_order d names -> Forall2 (oxt_file s d) names vs -> snd (oxt_read_from_dir (sys_env s) d false) = Ret (IoOk (frames vs)).
Proof.
  intros d names vs O F. apply order_listing in O. pose proof (files_hold d names vs F) as H. unfold oxt_read_from_dir. rewrite O.
  pose proof (read_files_ok _ _ _ _ _ _ (oxt_steps (sys_env s) d names _ H)) as R. unfold oxt_step in R. rewrite R. reflexivity.
Qed.
Lemma clouds_read : forall d names ms, in_name_order d names -> Forall2 (cloud_file s d) names ms -> snd (cloud_read_from_dir (sys_order s) d false) = Ret (IoOk ms).
Proof.
  intros d names ms O F. apply order_listing in O. pose proof (cloud_dir_spec (sys_order s) d) as C. rewrite O in C.
  assert (F' : Forall2 (fun p m => cloud_read (sys_order s) (contents d p) = Ret (IoOk m)) names ms).
  { clear -F. induction F; constructor; [now apply cloud_file_read|assumption]. }
  destruct C as [(ms' & G & ->)|(pre & p & post & ms' & e & -> & _ & E & _)].
  - cbn [snd]. do 2 f_equal. clear -F' G. revert ms' G. induction F'; intros ms' G; inversion G; subst; [reflexivity|]. f_equal; [congruence|now apply IHF'].
  - exfalso. apply Forall2_app_inv_l in F'. destruct F' as (l1 & l2 & _ & K & _). inversion K; subst. congruence.
Qed.

(** Which folders are readable. *)
Lemma oxts_cases : forall d, (exists names vs, in_name_order d names /\ Forall2 (oxt_file s d) names vs) \/
  (exists e, snd (oxt_read_from_dir (sys_env s) d false) = Ret (IoErr e)).
Proof.
  intros d. pose proof (oxt_dir_spec (sys_env s) d) as C. destruct (seq_files_in_dir d) as [names|e] eqn:E; [|right; exists e; now rewrite C].
  destruct C as [(rs & H & _)|(pre & p & post & rs & e & _ & _ & _ & ->)]; [|right; now exists e]. left.
  destruct (files_records d names rs H) as (vs & F & _). exists names, vs. split; [now apply order_listing|assumption].
Qed.
Lemma clouds_cases : forall d, (exists names ms, in_name_order d names /\ Forall2 (cloud_file s d) names ms) \/
  (exists e, snd (cloud_read_from_dir (sys_order s) d false) = Ret (IoErr e)).
Proof.
  intros d. pose proof (cloud_dir_spec (sys_order s) d) as C. destruct (seq_files_in_dir d) as [names|e] eqn:E; [|right; exists e; now rewrite C].
  destruct C as [(ms & H & _)|(pre & p & post & ms & e & _ & _ & _ & ->)]; [|right; now exists e]. left.
  exists names, ms. split; [now apply order_listing|]. clear -H. induction H; constructor; [now apply cloud_file_read|assumption].
Qed.

Lemma all_text : forall args, forallb utf8_valid args = true <-> Forall is_text args.
Proof. intro args. rewrite forallb_forall, Forall_forall. split; intros H x I; apply utf8_text, H, I. Qed.

Lemma main_runs : forall lookup args path vs ms, Forall is_text args -> nth_error args 1 = Some path -> drive s (lookup path) vs ms ->
  viz_main s lookup args = Ret (Some (mkRec (map pose_origin (frames vs)) (map2 (fun c p => pc_transform (pose_matrix p) c) ms (frames vs)))).
Proof.
  intros lookup args path vs ms T P (X & D & L & (n1 & O1 & F1) & (n2 & O2 & F2)). unfold viz_main. rewrite (proj2 (all_text args) T), P, X, D. cbn [negb orb].
  rewrite (oxts_read _ _ _ O1 F1), (clouds_read _ _ _ O2 F2). cbn [obind unwrap]. unfold prepare, oassert.
  rewrite frames_length, (proj2 (Nat.eqb_eq _ _) (eq_sym L)). reflexivity.
Qed.

Lemma main_cases : forall lookup args,
  (exists path vs ms, Forall is_text args /\ nth_error args 1 = Some path /\ drive s (lookup path) vs ms) \/
  (exists path, Forall is_text args /\ nth_error args 1 = Some path /\ ~ (folder_exists (lookup path) = true /\ folder_is_dir (lookup path) = true) /\
     viz_main s lookup args = Ret None) \/
  viz_main s lookup args = Panic.
Proof.
  intros lookup args. unfold viz_main. destruct (forallb utf8_valid args) eqn:T; cbn [negb]; [|right; now right]. apply all_text in T.
  destruct (nth_error args 1) as [path|] eqn:P; [|right; now right]. 
  destruct (folder_exists (lookup path)) eqn:X; cbn [negb orb]; [|right; left; exists path; repeat split; auto; intros [? ?]; congruence].
  destruct (folder_is_dir (lookup path)) eqn:D; cbn [negb orb]; [|right; left; exists path; repeat split; auto; intros [? ?]; congruence].
  destruct (oxts_cases (oxts_data (lookup path))) as [(n1 & vs & O1 & F1)|(e & ->)]; [|right; right; reflexivity]. rewrite (oxts_read _ _ _ O1 F1). cbn [obind unwrap].
  destruct (clouds_cases (velodyne_data (lookup path))) as [(n2 & ms & O2 & F2)|(e & ->)]; [|right; right; reflexivity]. rewrite (clouds_read _ _ _ O2 F2). cbn [obind unwrap].
  unfold prepare, oassert. destruct (Nat.eqb (length ms) (length (frames vs))) eqn:L; [|right; right; reflexivity]. left. exists path, vs, ms.
  apply Nat.eqb_eq in L. rewrite frames_length in L. split; [assumption|]. split; [reflexivity|]. split; [assumption|]. split; [assumption|]. split; [now symmetry|].
  split; [exists n1|exists n2]; split; assumption.
Qed.

Lemma main_opens : forall lookup args, (exists rec, viz_main s lookup args = Ret (Some rec)) <->
  Forall is_text args /\ exists path, nth_error args 1 = Some path /\ exists vs ms, drive s (lookup path) vs ms.
Proof.
  intros lookup args. split.
  - intros (rec & E). destruct (main_cases lookup args) as [(path & vs & ms & T & P & D)|[(path & _ & _ & _ & N)|N]]; [|congruence|congruence].
    split; [assumption|]. exists path. split; [assumption|]. now exists vs, ms.
  - intros (T & path & P & vs & ms & D). eexists. eapply main_runs; eassumption.
Qed.
Lemma main_ends : forall lookup args, viz_main s lookup args = Ret None <->
  Forall is_text args /\ exists path, nth_error args 1 = Some path /\ ~ (folder_exists (lookup path) = true /\ folder_is_dir (lookup path) = true).
Proof.
  intros lookup args. split.
  - intro E. destruct (main_cases lookup args) as [(path & vs & ms & T & P & D)|[(path & T & P & K & _)|N]]; [|eauto|congruence].
    rewrite (main_runs _ _ _ _ _ T P D) in E. discriminate E.
  - intros (T & path & P & K). unfold viz_main. rewrite (proj2 (all_text args) T), P. cbn [negb].
    destruct (folder_exists _), (folder_is_dir _); cbn [negb orb]; try reflexivity. exfalso. now apply K.
Qed.
Lemma main_panics : forall lookup args, viz_main s lookup args = Panic <->
  ~ Forall is_text args \/ (length args < 2)%nat \/
  exists path, nth_error args 1 = Some path /\ folder_exists (lookup path) = true /\ folder_is_dir (lookup path) = true /\ ~ exists vs ms, drive s (lookup path) vs ms.
Proof.
  intros lookup args. split.
  - intro E. destruct (forallb utf8_valid args) eqn:T; [|left; rewrite <- all_text; congruence]. apply all_text in T. right.
    destruct (nth_error args 1) as [path|] eqn:P; [|left; apply nth_error_None in P; lia]. right. exists path. split; [reflexivity|].
    destruct (folder_exists (lookup path)) eqn:X; [|exfalso; assert (K : viz_main s lookup args = Ret None) by (apply main_ends; split; [assumption|]; exists path; split; [assumption|]; intros [? ?]; congruence); congruence].
    destruct (folder_is_dir (lookup path)) eqn:D; [|exfalso; assert (K : viz_main s lookup args = Ret None) by (apply main_ends; split; [assumption|]; exists path; split; [assumption|]; intros [? ?]; congruence); congruence].
    split; [reflexivity|]. split; [reflexivity|]. intros (vs & ms & V). rewrite (main_runs _ _ _ _ _ T P V) in E. discriminate E.
  - intro H. destruct (main_cases lookup args) as [(path & vs & ms & T & P & V)|[(path & T & P & K & _)|N]]; [| |assumption]; exfalso.
    + destruct H as [H|[H|(path' & P' & X & D & H)]]; [now apply H| |]. { assert (H' : (length args <= 1)%nat) by lia. apply nth_error_None in H'. congruence. } apply H. exists vs, ms. congruence.
    + destruct H as [H|[H|(path' & P' & X & D & H)]]; [now apply H| |]. { assert (H' : (length args <= 1)%nat) by lia. apply nth_error_None in H'. congruence. } apply K. assert (path' = path) by congruence. subst. auto.
Qed.

Lemma Forall2_nth_r : forall (A B : Type) (R : A -> B -> Prop) l l' k y, Forall2 R l l' -> nth_error l' k = Some y -> exists x, R x y.
Proof. intros A B R l l' k y H. revert k. induction H as [|a b l l' Hab H IH]; intros [|k] E; cbn [nth_error] in E; try discriminate; [exists a; congruence|now apply (IH k)]. Qed.
Lemma map2_len : forall (A B C : Type) (f : A -> B -> C) la lb, length (map2 f la lb) = Nat.min (length la) (length lb).
Proof. intros A B C f la. induction la as [|x la IH]; intros [|y lb]; cbn [map2 length Nat.min]; try reflexivity. now rewrite IH. Qed.
Lemma map2_nth : forall (A B C : Type) (f : A -> B -> C) la lb k a b, nth_error la k = Some a -> nth_error lb k = Some b -> nth_error (map2 f la lb) k = Some (f a b).
Proof. intros A B C f la. induction la as [|x la IH]; intros [|y lb] [|k] a b H1 H2; cbn [nth_error map2] in *; try discriminate; [congruence|]. now apply IH. Qed.

Lemma main_frames : forall lookup args path rec vs ms, viz_main s lookup args = Ret (Some rec) -> nth_error args 1 = Some path -> drive s (lookup path) vs ms ->
  length (origins rec) = length vs /\ length (clouds rec) = length vs /\
  forall k v m, nth_error vs k = Some v -> nth_error ms k = Some m ->
    nth_error (origins rec) k = Some (coords (position s vs k v)) /\
    nth_error (clouds rec) k = Some (pc_transform (to_homogeneous F32A (position s vs k v) (rotation s v)) m).
Proof.
  intros lookup args path rec vs ms E P D. pose proof (proj1 (main_opens lookup args) (ex_intro _ rec E)) as [T _].
  rewrite (main_runs _ _ _ _ _ T P D) in E. injection E as <-. cbn [origins clouds]. rewrite map_length, map2_len, !frames_length.
  destruct D as (_ & _ & L & _). rewrite L. split; [reflexivity|]. split; [apply Nat.min_id|]. intros k v m Hv Hm. pose proof (frames_nth vs k v Hv) as F.
  split; [rewrite nth_error_map, F; reflexivity|]. rewrite (map2_nth _ _ _ _ _ _ _ _ _ Hm F). reflexivity.
Qed.

Lemma main_recorded : forall lookup args path rec vs ms, viz_main s lookup args = Ret (Some rec) -> nth_error args 1 = Some path -> drive s (lookup path) vs ms -> vs <> [] -> recorded rec.
Proof.
  intros lookup args path rec vs ms E P D N. destruct (main_frames _ _ _ _ _ _ E P D) as (L1 & L2 & _). split; [congruence|]. intros Z. rewrite Z in L2. destruct vs; [congruence|discriminate L2].
Qed.

(** The frame the k-th worker integrates. *)
Lemma main_started : forall lookup args path rec vs ms d lm r t tr st k o c, viz_main s lookup args = Ret (Some rec) -> nth_error args 1 = Some path -> drive s (lookup path) vs ms ->
  vs <> [] -> reaches rec d lm r t tr st -> nth_error (started tr) k = Some (o, c) ->
  exists v m, nth_error vs (k mod length vs) = Some v /\ nth_error ms (k mod length vs) = Some m /\
    o = coords (position s vs (k mod length vs) v) /\ c = pc_transform (to_homogeneous F32A (position s vs (k mod length vs) v) (rotation s v)) m.
Proof.
  intros lookup args path rec vs ms d lm r t tr st k o c E P D N R K. pose proof (main_recorded _ _ _ _ _ _ E P D N) as RC.
  destruct (cyclic_run _ _ _ _ _ _ _ _ _ _ RC R K) as [C1 C2]. destruct (main_frames _ _ _ _ _ _ E P D) as (L1 & L2 & F). rewrite L2 in *.
  assert (B : (k mod length vs < length vs)%nat) by (apply Nat.mod_upper_bound; destruct vs; [congruence|discriminate]).
  destruct (nth_error vs (k mod length vs)) as [v|] eqn:Ev; [|apply nth_error_None in Ev; lia].
  destruct D as (_ & _ & L & _). destruct (nth_error ms (k mod length vs)) as [m|] eqn:Em; [|apply nth_error_None in Em; lia].
  destruct (F _ _ _ Ev Em) as [F1 F2]. exists v, m. split; [reflexivity|]. split; [reflexivity|]. split; congruence.
Qed.

(** Where the points of a frame end up. *)
Lemma main_placed : forall lookup args path rec vs ms D k v m c, viz_main s lookup args = Ret (Some rec) -> nth_error args 1 = Some path -> drive s (lookup path) vs ms ->
  trig_accurate (sys_sin s) (sys_cos s) -> nth_error vs k = Some v -> nth_error ms k = Some m -> angle (oxt_roll v) -> angle (oxt_pitch v) -> angle (oxt_yaw v) ->
  (0 <= D <= bpow radix2 40)%R -> Forall (sized D) (coords (position s vs k v)) -> Forall (sized D) (mdata m) -> nth_error (clouds rec) k = Some c ->
  Forall2 (fun p q => length q = 3%nat /\ Forall finite q /\
    near3 (bpow radix2 (-15) * D + bpow radix2 (-147)) (triple q)
      (plus3 (turned (real (oxt_roll v)) (real (oxt_pitch v)) (real (oxt_yaw v)) (triple p)) (triple (coords (position s vs k v)))))
    (pc_points m) (pc_points c).
Proof.
  intros lookup args path rec vs ms D k v m c E P Dr A Hv Hm A1 A2 A3 LD S1 S2 C. destruct (main_frames _ _ _ _ _ _ E P Dr) as (_ & _ & F). destruct (F k v m Hv Hm) as [_ F2].
  rewrite F2 in C. injection C as <-. 
  assert (O : matrix_ok m /\ nrows m = 3%nat). { destruct Dr as (_ & _ & _ & _ & (n2 & _ & F2')). destruct (Forall2_nth_r _ _ _ _ _ _ _ F2' Hm) as (n & (b & _ & _ & O & N & _)). auto. }
  destruct O as [O N]. destruct (position s vs k v) as [[t1 t2] t3] eqn:Et. 
  exact (placed (sys_sin s) (sys_cos s) _ _ _ (t1, t2, t3) D m A A1 A2 A3 LD S1 O N S2).
Qed.
End Main.
