(** C93: a scan in two parts. *)
From Coq Require Import ZArith List Bool Reals Lra Lia Permutation.
From Flocq Require Import Core BinarySingleNaN.
From Verif Require Import Base F32 Arith Geom NdArray GridMap RayCaster NoiseModel Spec SpecMap SpecNoise NdProofs GridProofs MapProofs CastProofs RaysProofs NoiseProofs ReturnProofs FloatFacts BoundsProofs CloudProofs ExpandProofs AlignProofs CornerProofs ExtentProofs ForgetProofs.
Open Scope Z_scope.

(** Whether a map is large enough depends on its extent only. *)
Lemma roomy : forall d r t (g h : grid_map f32) b, map_range d r t -> reachable d r t g -> reachable d r t h -> request_ok d r b ->
  gm_bounds h = gm_bounds g -> nd_shape (gm_data h) = nd_shape (gm_data g) -> gm_expand_bounds g b f0 = Ret g -> gm_expand_bounds h b f0 = Ret h.
Proof.
  intros d r t g h b M Rg Rh RQ EB ES E. destruct (wf_of_reachable d r t g M Rg) as [cb W]. destruct (wf_of_reachable d r t h M Rh) as [cb2 W2].
  pose proof (wf_covers _ _ _ _ _ M W) as C. pose proof (wf_covers _ _ _ _ _ M W2) as C2.
  assert (Ch : covers_cells d r t h cb).
  { destruct C as [A1 A2 A3 A4 A5 A6 A7 A8 A9]. destruct C2 as [B1 B2 _ _ _ _ _ _ B9]. constructor; try assumption; rewrite ?EB; try assumption. congruence. }
  pose proof (covers_wf d r t h cb M Rh Ch) as Wh.
  destruct (expand_step d r t g cb b f0 M W RQ) as (db & g' & cb' & u & Edb & E' & W' & _ & _ & _ & S & _).
  assert (g' = g) by congruence. subst g'. assert (cb' = cb) by exact (covers_unique d r t g cb' cb (proj1 (proj2 M)) (wf_covers _ _ _ _ _ M W') C). subst cb'.
  exact (expand_covered d r t h cb b f0 db M Wh RQ Edb S).
Qed.

(** A box within a box that may be asked for may be asked for, and fits where the larger one does. *)
Lemma sub_request : forall d r b b', request_ok d r b -> ordered d b' -> sub_box b' b -> request_ok d r b'.
Proof.
  intros d r b b' ((L1 & L2 & O) & W1 & W2) O' [S1 S2]. split; [exact O'|]. destruct O' as (L3 & L4 & O').
  revert W1 W2 S1 S2 O'. generalize (bmin b) (bmax b) (bmin b') (bmax b'). clear. intros u v x y W1 W2 S1 S2 O'.
  revert u v W1 W2 S1 S2. induction O' as [|p q x y Hpq O' IH]; intros u v W1 W2 S1 S2; [split; constructor|].
  inversion S1 as [|a ? u' ? Ha S1']; subst. inversion S2 as [|? e ? v' He S2']; subst. apply Forall_cons_iff in W1, W2. destruct W1 as [[Fa Wa] W1]. destruct W2 as [[Fe We] W2].
  destruct (IH _ _ W1 W2 S1' S2') as [I1 I2].
  assert (Haq : fle a q) by (eapply fle_trans; eauto). assert (Hpe : fle p e) by (eapply fle_trans; eauto).
  pose proof (between_finite a p e Fa Fe Ha Hpe) as Fp. pose proof (between_finite a q e Fa Fe Haq He) as Fq.
  apply (fle_real _ _ Fa Fp) in Ha. apply (fle_real _ _ Fq Fe) in He. apply (fle_real _ _ Fp Fq) in Hpq. apply Rabs_le_inv in Wa, We.
  split; constructor; try assumption; (split; [assumption|apply Rabs_le; lra]).
Qed.
Lemma smaller_fits : forall d r t (g : grid_map f32) b b', map_range d r t -> reachable d r t g -> request_ok d r b -> ordered d b' -> sub_box b' b ->
  gm_expand_bounds g b f0 = Ret g -> gm_expand_bounds g b' f0 = Ret g.
Proof.
  intros d r t g b b' M Rg Q O' S E. pose proof (sub_request d r b b' Q O' S) as Q'. pose proof (proj1 (proj2 M)) as HR.
  destruct (wf_of_reachable d r t g M Rg) as [cb W].
  destruct (expand_step d r t g cb b f0 M W Q) as (db & g' & cb' & u & Edb & E' & W' & _ & _ & _ & SC & _).
  assert (g' = g) by congruence. subst g'. destruct (expand_step d r t g cb b' f0 M W Q') as (db' & _ & _ & _ & Edb' & _).
  apply (expand_covered d r t g cb' b' f0 db' M W' Q' Edb'). rewrite (asked_is d r b' db' HR Q' Edb'). rewrite (asked_is d r b db HR Q Edb) in SC.
  destruct Q as (_ & W1 & W2). destruct Q' as (_ & W3 & W4). destruct S as [S1 S2]. destruct SC as [C1 C2]. cbn [asked cmin cmax] in C1, C2. split; cbn [asked cmin cmax].
  - eapply Zle_trans2; [exact C1|]. clear - HR S1 W1 W3. induction S1; cbn [map]; constructor; apply Forall_cons_iff in W1, W3; [|apply IHS1; tauto].
    destruct W1 as [[F1 B1] _]. destruct W3 as [[F3 B3] _]. apply disc_lower; try assumption; try (split; assumption). now apply fle_real.
  - eapply Zle_trans2; [|exact C2]. clear - HR S2 W2 W4. induction S2; cbn [map]; constructor; apply Forall_cons_iff in W2, W4; [|apply IHS2; tauto].
    destruct W2 as [[F1 B1] _]. destruct W4 as [[F3 B3] _]. apply disc_upper; try assumption; try (split; assumption). now apply fle_real.
Qed.
Lemma part_box : forall A AB, matrix_ok A -> matrix_ok AB -> nrows A = nrows AB -> (forall p, In p (pc_points A) -> In p (pc_points AB)) -> sub_box (pc_bounds A) (pc_bounds AB).
Proof.
  intros A AB MA MB N P. destruct (pc_bounds_spec A MA) as (_ & _ & _ & H & _). destruct (pc_bounds_spec AB MB) as (_ & I & C & _).
  apply H; [rewrite N; exact I|]. intros p Hp. apply C, P, Hp.
Qed.

Lemma rays_union : forall fuel o A B AB b r m f oc fA oA fB oB, (forall p, In p (pc_points AB) <-> In p (pc_points A) \/ In p (pc_points B)) ->
  cast_rays fuel o AB b r m = Ret (f, oc) -> cast_rays fuel o A b r m = Ret (fA, oA) -> cast_rays fuel o B b r m = Ret (fB, oB) ->
  (forall c, In c oc <-> In c oA \/ In c oB) /\ (forall c, In c f <-> (In c fA \/ In c fB) /\ ~ In c oA /\ ~ In c oB).
Proof.
  intros fuel o A B AB b r m f oc fA oA fB oB P R RA RB.
  destruct (cast_rays_sets _ _ _ _ _ _ _ _ R) as (_ & O & F & _). destruct (cast_rays_sets _ _ _ _ _ _ _ _ RA) as (_ & OA & FA & _). destruct (cast_rays_sets _ _ _ _ _ _ _ _ RB) as (_ & OB & FB & _).
  assert (U : forall c, In c oc <-> In c oA \/ In c oB).
  { intro c. rewrite O, OA, OB. split.
    - intros (p & rc & Hp & C). apply P in Hp. destruct Hp as [Hp|Hp]; [left|right]; exists p, rc; auto.
    - intros [(p & rc & Hp & C)|(p & rc & Hp & C)]; exists p, rc; (split; [apply P; auto|exact C]). }
  split; [exact U|]. intro c. rewrite F, FA, FB, U. split.
  - intros [(p & rc & oe & Hp & C & I) N]. apply P in Hp. split; [|tauto]. destruct Hp as [Hp|Hp]; [left|right]; (split; [exists p, rc, oe; auto|tauto]).
  - intros [[[(p & rc & oe & Hp & C & I) N]|[(p & rc & oe & Hp & C & I) N]] [N1 N2]]; (split; [exists p, rc, oe; split; [apply P; auto|auto]|tauto]).
Qed.

Section Split.
Context (d : nat) (r : f32) (t : Z) (m : lidar) (g : grid_map f32) (o : point) (A B AB : matrix) (fuel : nat).
Context (M : map_range d r t) (Rg : reachable d r t g) (MA : matrix_ok A) (MB : matrix_ok B) (MAB : matrix_ok AB) (NA : nrows A = d) (NB : nrows B = d) (NAB : nrows AB = d).
Context (QAB : request_ok d r (pc_bounds AB)) (EAB : gm_expand_bounds g (pc_bounds AB) f0 = Ret g).
Context (P : forall p, In p (pc_points AB) <-> In p (pc_points A) \/ In p (pc_points B)).

Lemma fits : forall X, matrix_ok X -> nrows X = d -> (forall p, In p (pc_points X) -> In p (pc_points AB)) ->
  request_ok d r (pc_bounds X) /\ gm_expand_bounds g (pc_bounds X) f0 = Ret g.
Proof.
  intros X MX NX PX. pose proof (part_box X AB MX MAB (eq_trans NX (eq_sym NAB)) PX) as S. destruct (pc_bounds_spec X MX) as (O & _). rewrite NX in O.
  split; [exact (sub_request d r _ _ QAB O S)|exact (smaller_fits d r t g _ _ M Rg QAB O S EAB)].
Qed.
Lemma QA : request_ok d r (pc_bounds A). Proof. apply fits; [assumption..|]. intros p H. apply P. now left. Qed.
Lemma QB : request_ok d r (pc_bounds B). Proof. apply fits; [assumption..|]. intros p H. apply P. now right. Qed.
Lemma EA : gm_expand_bounds g (pc_bounds A) f0 = Ret g. Proof. apply fits; [assumption..|]. intros p H. apply P. now left. Qed.
Lemma EB : gm_expand_bounds g (pc_bounds B) f0 = Ret g. Proof. apply fits; [assumption..|]. intros p H. apply P. now right. Qed.

Lemma storage_g : storage_ok (gm_data g).
Proof. destruct (wf_of_reachable d r t g M Rg) as [cb W]. exact (cc_storage _ _ _ _ _ (wf_covers _ _ _ _ _ M W)). Qed.

(** What is left of the map after the first part. *)
Lemma after_part : forall of oo gA, is_order of -> is_order oo -> integrate_point_cloud fuel of oo m g o A = Ret gA ->
  gm_expand_bounds gA (pc_bounds B) f0 = Ret gA /\ storage_ok (gm_data gA) /\ nd_shape (gm_data gA) = nd_shape (gm_data g) /\ gm_bounds gA = gm_bounds g /\
  gm_resolution gA = gm_resolution g /\ gm_track_changes gA = gm_track_changes g.
Proof.
  intros of oo gA Hf Ho I. pose proof (integrate_reachable d r t fuel of oo m g o A gA Rg QA I) as RA.
  destruct (integrate_spec fuel of oo m g o A gA Hf Ho storage_g I) as (g1 & fr & oc & E & _ & _ & SA & SH & BO & RE & TI & TR & _).
  assert (g1 = g) by (rewrite EA in E; congruence). subst g1.
  split; [exact (roomy d r t g gA _ M Rg RA QB BO SH EB)|auto].
Qed.

Lemma split_taken : forall of1 oo1 of2 oo2 of3 oo3, is_order of1 -> is_order oo1 -> is_order of2 -> is_order oo2 -> is_order of3 -> is_order oo3 ->
  ((exists g', integrate_point_cloud fuel of1 oo1 m g o AB = Ret g') <->
   exists gA g', integrate_point_cloud fuel of2 oo2 m g o A = Ret gA /\ integrate_point_cloud fuel of3 oo3 m gA o B = Ret g').
Proof.
  intros of1 oo1 of2 oo2 of3 oo3 H1 H2 H3 H4 H5 H6.
  pose proof (proj1 (integrate_iff fuel of1 oo1 m g g o AB H1 H2 storage_g EAB)) as IAB. pose proof (proj1 (integrate_iff fuel of2 oo2 m g g o A H3 H4 storage_g EA)) as IA.
  cbv zeta in IAB, IA. rewrite IAB. clear IAB. split.
  - intro K. destruct (proj2 IA) as [gA GA]; [intros p Hp; apply K, P; now left|].
    destruct (after_part of2 oo2 gA H3 H4 GA) as (EB' & SA & SH & BO & RE & _).
    pose proof (proj1 (integrate_iff fuel of3 oo3 m gA gA o B H5 H6 SA EB')) as IB. cbv zeta in IB. rewrite SH, BO, RE in IB.
    destruct (proj2 IB) as [g' G']; [intros p Hp; apply K, P; now right|]. exists gA, g'. auto.
  - intros (gA & g' & GA & G'). destruct (after_part of2 oo2 gA H3 H4 GA) as (EB' & SA & SH & BO & RE & _).
    pose proof (proj1 (integrate_iff fuel of3 oo3 m gA gA o B H5 H6 SA EB')) as IB. cbv zeta in IB. rewrite SH, BO, RE in IB.
    intros p Hp. apply P in Hp. destruct Hp as [Hp|Hp]; [apply (proj1 IA); [now exists gA|exact Hp]|apply (proj1 IB); [now exists g'|exact Hp]].
Qed.

Lemma split_values : forall of1 oo1 of2 oo2 of3 oo3 gAB gA gB, is_order of1 -> is_order oo1 -> is_order of2 -> is_order oo2 -> is_order of3 -> is_order oo3 ->
  integrate_point_cloud fuel of1 oo1 m g o AB = Ret gAB -> integrate_point_cloud fuel of2 oo2 m g o A = Ret gA -> integrate_point_cloud fuel of3 oo3 m gA o B = Ret gB ->
  let hit v := fmin (fadd v (hit_logodds m)) (max_logodds m) in let miss v := fmax (fadd v (miss_logodds m)) (min_logodds m) in
  gm_bounds gAB = gm_bounds gB /\ nd_shape (gm_data gAB) = nd_shape (gm_data gB) /\
  exists fA oA fB oB, cast_rays fuel o A (gm_bounds g) (gm_resolution g) (max_range m) = Ret (fA, oA) /\ cast_rays fuel o B (gm_bounds g) (gm_resolution g) (max_range m) = Ret (fB, oB) /\
  (forall c, cells_in_isize c -> ~ ((In c fA \/ In c oA) /\ (In c fB \/ In c oB)) -> gm_get gAB c = gm_get gB c) /\
  (forall c, In c fA \/ In c oA -> In c fB \/ In c oB -> exists v, gm_get g c = Ret v /\
     (In c oA -> In c oB -> gm_get gAB c = Ret (hit v) /\ gm_get gB c = Ret (hit (hit v))) /\
     (In c oA -> In c fB -> gm_get gAB c = Ret (hit v) /\ gm_get gB c = Ret (miss (hit v))) /\
     (In c fA -> In c oB -> gm_get gAB c = Ret (hit v) /\ gm_get gB c = Ret (hit (miss v))) /\
     (In c fA -> In c fB -> gm_get gAB c = Ret (miss v) /\ gm_get gB c = Ret (miss (miss v)))) /\
  (gm_track_changes g = true -> forall c, In c (gm_changed_cells gAB) <-> In c (gm_changed_cells gB)).
Proof.
  intros of1 oo1 of2 oo2 of3 oo3 gAB gA gB H1 H2 H3 H4 H5 H6 IAB IA IB hit miss.
  destruct (after_part of2 oo2 gA H3 H4 IA) as (EB' & SA & SH & BO & RE & TR).
  destruct (integrate_spec _ _ _ _ _ _ _ _ H1 H2 storage_g IAB) as (g1 & f & oc & E1 & C & _ & _ & SH1 & BO1 & _ & _ & _ & HO & HF & HN & HT & _).
  destruct (integrate_spec _ _ _ _ _ _ _ _ H3 H4 storage_g IA) as (g2 & fA & oA & E2 & CA & _ & _ & _ & _ & _ & _ & _ & HOA & HFA & HNA & HTA & _).
  destruct (integrate_spec _ _ _ _ _ _ _ _ H5 H6 SA IB) as (g3 & fB & oB & E3 & CB & _ & _ & SH3 & BO3 & _ & _ & _ & HOB & HFB & HNB & HTB & _).
  assert (g1 = g) by (rewrite EAB in E1; congruence). assert (g2 = g) by (rewrite EA in E2; congruence). assert (g3 = gA) by (rewrite EB' in E3; congruence). subst g1 g2 g3.
  rewrite BO, RE in CB. destruct (rays_union _ _ _ _ _ _ _ _ _ _ _ _ _ _ P C CA CB) as [UO UF].
  destruct (cast_rays_sets _ _ _ _ _ _ _ _ CA) as (_ & _ & SFA & _). destruct (cast_rays_sets _ _ _ _ _ _ _ _ CB) as (_ & _ & SFB & _).
  assert (XA : forall c, In c fA -> ~ In c oA) by (intros c H; apply SFA in H; tauto). assert (XB : forall c, In c fB -> ~ In c oB) by (intros c H; apply SFB in H; tauto). clear SFA SFB.
  split; [congruence|]. split; [congruence|]. exists fA, oA, fB, oB. split; [exact CA|]. split; [exact CB|].
  assert (DEC : forall (c : cell) l, {In c l} + {~ In c l}) by (intros c l; apply in_dec, list_eq_dec, Z.eq_dec).
  destruct (cast_rays_isize _ _ _ _ _ _ _ _ CA) as [IfA IoA]. destruct (cast_rays_isize _ _ _ _ _ _ _ _ CB) as [IfB IoB]. rewrite Forall_forall in IfA, IoA, IfB, IoB.
  split; [|split].
  - intros c Ic N.
    destruct (DEC c oA) as [a|a].
    { assert (~ In c fB /\ ~ In c oB) by tauto. rewrite (HNB c Ic) by tauto. destruct (HO c) as (v & G1 & G2); [apply UO; auto|]. destruct (HOA c a) as (w & W1 & W2). congruence. }
    destruct (DEC c oB) as [b|b].
    { assert (~ In c fA) by tauto. destruct (HO c) as (v & G1 & G2); [apply UO; auto|]. destruct (HOB c b) as (w & W1 & W2). rewrite (HNA c Ic) in W1 by tauto. congruence. }
    destruct (DEC c fA) as [x|x].
    { assert (~ In c fB) by tauto. rewrite (HNB c Ic) by tauto. destruct (HF c) as (v & G1 & G2); [apply UF; auto|]. destruct (HFA c x) as (w & W1 & W2). congruence. }
    destruct (DEC c fB) as [y|y].
    { destruct (HF c) as (v & G1 & G2); [apply UF; auto|]. destruct (HFB c y) as (w & W1 & W2). rewrite (HNA c Ic) in W1 by tauto. congruence. }
    rewrite (HN c Ic); [|rewrite UO; tauto|rewrite UF; tauto]. rewrite (HNB c Ic) by tauto. rewrite (HNA c Ic) by tauto. reflexivity.
  - intros c a b. assert (G : exists v, gm_get g c = Ret v) by (destruct a as [a|a]; [destruct (HFA c a) as (v & K & _)|destruct (HOA c a) as (v & K & _)]; now exists v).
    destruct G as [v G]. exists v. split; [exact G|]. fold hit in HO, HOA, HOB. fold miss in HF, HFA, HFB.
    split; [|split; [|split]]; intros x y.
    + destruct (HO c) as (w & W1 & W2); [apply UO; auto|]. destruct (HOA c x) as (w2 & W3 & W4). destruct (HOB c y) as (w3 & W5 & W6). split; unfold hit in *; congruence.
    + destruct (HO c) as (w & W1 & W2); [apply UO; auto|]. destruct (HOA c x) as (w2 & W3 & W4). destruct (HFB c y) as (w3 & W5 & W6). split; unfold hit, miss in *; congruence.
    + destruct (HO c) as (w & W1 & W2); [apply UO; auto|]. destruct (HFA c x) as (w2 & W3 & W4). destruct (HOB c y) as (w3 & W5 & W6). split; unfold hit, miss in *; congruence.
    + destruct (HF c) as (w & W1 & W2); [apply UF; split; [auto|]; split; auto|]. destruct (HFA c x) as (w2 & W3 & W4). destruct (HFB c y) as (w3 & W5 & W6). split; unfold miss in *; congruence.
  - intros T c. destruct (HT T) as (l & -> & _ & L). destruct (HTB ltac:(congruence)) as (lB & -> & _ & LB). destruct (HTA T) as (lA & -> & _ & LA).
    rewrite !in_app_iff, L, LA, LB, UO, UF. destruct (DEC c oA), (DEC c oB); tauto.
Qed.
End Split.

(** How often the points of a scan are given, and in which order, does not matter. *)
Lemma same_points : forall d r t m g o A B fuel of1 oo1 of2 oo2, map_range d r t -> reachable d r t g ->
  matrix_ok A -> matrix_ok B -> nrows A = d -> nrows B = d -> request_ok d r (pc_bounds A) -> gm_expand_bounds g (pc_bounds A) f0 = Ret g ->
  (forall p, In p (pc_points A) <-> In p (pc_points B)) -> is_order of1 -> is_order oo1 -> is_order of2 -> is_order oo2 ->
  ((exists gA, integrate_point_cloud fuel of1 oo1 m g o A = Ret gA) <-> exists gB, integrate_point_cloud fuel of2 oo2 m g o B = Ret gB) /\
  forall gA gB, integrate_point_cloud fuel of1 oo1 m g o A = Ret gA -> integrate_point_cloud fuel of2 oo2 m g o B = Ret gB ->
  gm_bounds gA = gm_bounds gB /\ nd_shape (gm_data gA) = nd_shape (gm_data gB) /\ (forall c, cells_in_isize c -> gm_get gA c = gm_get gB c) /\
  (gm_track_changes g = true -> forall c, In c (gm_changed_cells gA) <-> In c (gm_changed_cells gB)).
Proof.
  intros d r t m g o A B fuel of1 oo1 of2 oo2 M Rg MA MB NA NB QA EA P H1 H2 H3 H4.
  pose proof (storage_g d r t g M Rg) as SG.
  destruct (fits d r t g A M Rg MA NA QA EA B MB NB (fun p => proj2 (P p))) as [_ EB].
  pose proof (proj1 (integrate_iff fuel of1 oo1 m g g o A H1 H2 SG EA)) as IA. pose proof (proj1 (integrate_iff fuel of2 oo2 m g g o B H3 H4 SG EB)) as IB. cbv zeta in IA, IB.
  split. { rewrite IA, IB. split; intros K p Hp; apply K, P, Hp. }
  intros gA gB GA GB.
  destruct (integrate_spec _ _ _ _ _ _ _ _ H1 H2 SG GA) as (g1 & fA & oA & E1 & CA & _ & _ & SH1 & BO1 & _ & _ & _ & HOA & HFA & HNA & HTA & _).
  destruct (integrate_spec _ _ _ _ _ _ _ _ H3 H4 SG GB) as (g2 & fB & oB & E2 & CB & _ & _ & SH2 & BO2 & _ & _ & _ & HOB & HFB & HNB & HTB & _).
  assert (g1 = g) by (rewrite EA in E1; congruence). assert (g2 = g) by (rewrite EB in E2; congruence). subst g1 g2.
  assert (P' : forall p, In p (pc_points A) <-> In p (pc_points A) \/ In p (pc_points B)) by (intro p; rewrite <- P; tauto).
  destruct (rays_union _ _ _ _ _ _ _ _ _ _ _ _ _ _ P' CA CA CB) as [UO UF].
  assert (P'' : forall p, In p (pc_points B) <-> In p (pc_points A) \/ In p (pc_points B)) by (intro p; rewrite P; tauto).
  destruct (rays_union _ _ _ _ _ _ _ _ _ _ _ _ _ _ P'' CB CA CB) as [UO' UF'].
  assert (VO : forall c, In c oA <-> In c oB) by (intro c; rewrite UO, UO'; tauto). assert (VF : forall c, In c fA <-> In c fB) by (intro c; rewrite UF, UF'; tauto).
  split; [congruence|]. split; [congruence|]. split.
  - intros c Ic. assert (DEC : forall (c : cell) l, {In c l} + {~ In c l}) by (intros; apply in_dec, list_eq_dec, Z.eq_dec).
    destruct (DEC c oA) as [a|a]. { destruct (HOA c a) as (v & V1 & V2). destruct (HOB c (proj1 (VO c) a)) as (w & W1 & W2). congruence. }
    destruct (DEC c fA) as [b|b]. { destruct (HFA c b) as (v & V1 & V2). destruct (HFB c (proj1 (VF c) b)) as (w & W1 & W2). congruence. }
    rewrite (HNA c Ic a b). rewrite (HNB c Ic); [reflexivity|rewrite <- VO; exact a|rewrite <- VF; exact b].
  - intros T c. destruct (HTA T) as (lA & -> & _ & LA). destruct (HTB T) as (lB & -> & _ & LB). rewrite !in_app_iff, LA, LB, VO, VF. tauto.
Qed.
