(** The program around the threads: default map, preparation of the recording. *)
From Coq Require Import ZArith List Bool Reals Lra Lia Permutation.
From Flocq Require Import Core BinarySingleNaN.
From Verif Require Import Base F32 Arith Geom NdArray GridMap RayCaster NoiseModel Spec SpecMap SpecNoise CloudProofs GridProofs ExpandProofs MapProofs NoiseProofs Examples ExamplesMap Viz SpecViz VizProofs.
Open Scope Z_scope.

(** ** The program itself *)
Lemma default_range : map_range 3 DEFAULT_RESOLUTION DEFAULT_TILE_SIZE.
Proof. split; [now right|]. split; [exact res_tenth|unfold DEFAULT_TILE_SIZE; lia]. Qed.
Lemma default_threshold : forall ln m, ln_special ln -> lidar_default ln = Ret m -> fltb (occupied_threshold_logodds m) f0 = false.
Proof.
  intros ln m S E. unfold lidar_default, lidar_new, oassert in E.
  repeat match type of E with context [is_probability ?p] => replace (is_probability p) with true in E by (vm_compute; reflexivity) end. cbn [obind] in E.
  injection E as <-. cbn [occupied_threshold_logodds].
  assert (Z0 : feqb (logodds_from_probability F32A ln fhalf) f0 = true) by apply (MathProofs.logodds_special ln S).
  change DEFAULT_OCCUPIED_THRESHOLD with (f32_lit 5 10). replace (f32_lit 5 10) with fhalf by (apply B2SF_inj; vm_compute; reflexivity).
  apply FloatFacts.feqb_iff in Z0. destruct Z0 as (N1 & N2 & Z0). destruct (fltb _ f0) eqn:L; [|reflexivity]. apply FloatFacts.fltb_iff in L. destruct L as (_ & _ & L). lra.
Qed.
Lemma display_in_program : forall ln rec m tr s, ln_special ln -> lidar_default ln = Ret m -> recorded rec ->
  Forall (fun c => request_ok 3 DEFAULT_RESOLUTION (pc_bounds c)) (clouds rec) ->
  reaches rec 3 m DEFAULT_RESOLUTION DEFAULT_TILE_SIZE tr s -> corner_kept tr -> existsb panicked (workers s) = false -> render s = RUnlockGrid ->
  forall c, cells_in_isize c -> (exists p, In (c, p) (tracked s)) <-> om_occupied (grid s) c = Ret true.
Proof.
  intros ln rec m tr s S E R RQ H CK NP Er c Ic.
  destruct (display_right rec 3 _ _ m tr s R default_range RQ (default_threshold ln m S E) H CK NP) as (_ & _ & X & Y). destruct (Y Er) as [Y1 Y2].
  apply X; [assumption| |]; rewrite ?Y1, ?Y2; auto.
Qed.
Lemma default_start : forall ln o, om_default 3 ln = Ret o -> exists m, lidar_default ln = Ret m /\ om_new 3 m DEFAULT_RESOLUTION DEFAULT_TILE_SIZE = Ret o.
Proof. intros ln o E. unfold om_default in E. destruct (lidar_default ln) as [m| |]; [|discriminate E|discriminate E]. exists m. split; [reflexivity|exact E]. Qed.

Lemma prepare_spec : forall P (h : P -> list (list f32)) poses cl cl', prepare h poses cl = Ret cl' ->
  length cl = length poses /\ length cl' = length poses /\
  forall i p c, nth_error poses i = Some p -> nth_error cl i = Some c -> nth_error cl' i = Some (pc_transform (h p) c).
Proof.
  intros P h poses cl cl' E. unfold prepare, oassert in E. destruct (Nat.eqb _ _) eqn:L; [|discriminate]. cbn [obind] in E. injection E as <-.
  apply Nat.eqb_eq in L. split; [assumption|]. revert poses L. induction cl as [|c cl IH]; intros [|p poses] L; cbn [length] in L; try discriminate.
  - split; [reflexivity|]. intros i p c H. destruct i; discriminate.
  - cbn [map2 length]. destruct (IH poses ltac:(lia)) as [L' K]. split; [lia|]. intros [|i] p' c' H1 H2; cbn [nth_error] in *; [congruence|now apply K].
Qed.
Lemma prepare_panics : forall P (h : P -> list (list f32)) poses cl, prepare h poses cl = Panic <-> length cl <> length poses.
Proof.
  intros P h poses cl. unfold prepare, oassert. destruct (Nat.eqb _ _) eqn:L; cbn [obind]; [apply Nat.eqb_eq in L|apply Nat.eqb_neq in L]; split; auto; try discriminate; contradiction.
Qed.
