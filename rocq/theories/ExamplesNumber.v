(** Concrete numbers and records. *)
From Coq Require Import ZArith List Bool Reals Lia Lra Strings.Byte Strings.String.
From Flocq Require Import Core BinarySingleNaN.
From Verif Require Import Base F32 F64 Arith Geom Kitti Spec SpecKitti Number SpecNumber OxtProofs DirProofs NumberProofs NumberRoundProofs NumberReadProofs.
Open Scope Z_scope.
Import List.

Definition txt (s : string) : bytes := list_byte_of_string s.
Arguments txt s%string_scope.

(** 49.25, written in three ways, and -1e-3. *)
Definition t_plain : bytes := txt "49.25".
Definition t_zeros : bytes := txt "+0049.2500".
Definition t_exp : bytes := txt "4925E-2".
Definition t_milli : bytes := txt "-1e-3".

Lemma by_value : forall s neg m e v, parse_sign s = (neg, snd (parse_sign s)) -> parse_number (snd (parse_sign s)) = Some (m, e) ->
  v = (IZR m * powerRZ 10 e)%R -> number_text s neg v.
Proof. intros s neg m e v S P ->. apply number_text_iff. exists m, e. rewrite S. auto. Qed.

Ltac real_by := cbn [powerRZ signed]; rewrite ?(pow_IZR 10), ?positive_nat_Z; vm_compute Z.pow; lra.

Lemma ex_texts : number_text t_plain false (197 / 4) /\ number_text t_zeros false (197 / 4) /\
  number_text t_exp false (197 / 4) /\ number_text t_milli true (/ 1000).
Proof.
  split; [|split; [|split]]; (eapply by_value; [reflexivity|vm_compute; reflexivity|real_by]).
Qed.

Lemma ex_values : option_map B2SF (parse_float 53 1024 t_plain) = Some (SpecFloat.S754_finite false 6931321301499904 (-47)) /\
  parse_float 53 1024 (txt "1e400") = Some (B754_infinity false) /\ parse_float 53 1024 (txt "-.5e-400") = Some (B754_zero true) /\
  option_map B2SF (parse_float 24 128 (txt "16777217")) = Some (SpecFloat.S754_finite false 8388608 1) /\
  option_map B2SF (parse_float 24 128 (txt "16777219")) = Some (SpecFloat.S754_finite false 8388610 1).
Proof. repeat split; vm_compute; reflexivity. Qed.

Lemma ex_words : spells (txt "iNF") text_inf /\ spells (txt "Infinity") text_infinity /\ spells (txt "NaN") text_nan /\ sign_text (txt "-") true.
Proof.
  repeat split; try (unfold spells; cbn; repeat (apply Forall2_cons; [(left; reflexivity) || (right; vm_compute; split; [reflexivity|split; discriminate])|]); apply Forall2_nil).
  right; right. auto.
Qed.

Lemma ex_refused : parse_float 53 1024 [] = None /\ parse_float 53 1024 (txt ".") = None /\ parse_float 53 1024 (txt "1e") = None /\
  parse_float 53 1024 (txt "1,5") = None /\ parse_float 53 1024 (txt "0x10") = None /\ In x20 (txt "1 ") /\ ~ plain x20.
Proof.
  repeat split; try (vm_compute; reflexivity).
  - right. now left.
  - unfold plain. vm_compute. intros [A|[A|[A|[[A _]|[[A _]|[A _]]]]]]; try discriminate A; now apply A.
Qed.

(** A tenth with seventeen digits. *)
Definition a_tenth : f64 := f64_of 7205759403792794 (-56).
Definition t_tenth : bytes := txt "0.10000000000000001".
Lemma ex_tenth : is_finite a_tenth = true /\ (bpow radix2 (2 - 1024) <= Rabs (B2R a_tenth))%R /\
  number_text t_tenth false (10000000000000001 / 100000000000000000) /\
  (Rabs (signed false (10000000000000001 / 100000000000000000) - B2R a_tenth) < bpow radix2 (- (53) - 1) * Rabs (B2R a_tenth))%R.
Proof.
  assert (V : B2SF a_tenth = SpecFloat.S754_finite false 7205759403792794 (-56)) by (vm_compute; reflexivity).
  assert (E : B2R a_tenth = (7205759403792794 * / 72057594037927936)%R).
  { rewrite <- SF2R_B2SF, V. reflexivity. }
  assert (A : Rabs (B2R a_tenth) = B2R a_tenth) by (apply Rabs_pos_eq; rewrite E; lra).
  split; [now rewrite <- is_finite_SF_B2SF, V|]. split; [|split].
  - rewrite A. apply Rle_trans with (bpow radix2 (-10)); [apply bpow_le; lia|]. rewrite E. change (bpow radix2 (-10)) with (/ 1024)%R. lra.
  - eapply by_value; [reflexivity|vm_compute; reflexivity|]. real_by.
  - rewrite A, E. cbn [signed]. change (bpow radix2 (- (53) - 1)) with (/ 18014398509481984)%R. apply Rabs_def1; lra.
Qed.

(** Two records, the second with another field and a line break. *)
Definition line1 : bytes := txt "49.25 8.4 115.5 0 0 -1e-3".
Definition line2 : bytes := txt "49.5 8.4 116 0 0 .5 1.25
".
Definition dir2 : directory := mkDir (IoOk [IoOk (txt "1.txt"); IoOk (txt "0.txt")])
  (fun n => IoOk (if list_eq_dec Byte.byte_eq_dec n (txt "0.txt") then line1 else line2)).

Lemma by_field : forall s neg m e v, fst (parse_sign s) = neg -> parse_number (snd (parse_sign s)) = Some (m, e) ->
  v = signed neg (IZR m * powerRZ 10 e) -> field_value s v.
Proof.
  intros s neg m e v S P ->. exists neg, (IZR m * powerRZ 10 e)%R. split; [|reflexivity].
  apply number_text_iff. exists m, e. auto.
Qed.

Ltac field_by := eapply by_field; [vm_compute; reflexivity|vm_compute; reflexivity|real_by].

Lemma ex_gives : gives line1 (197 / 4) (42 / 5) (231 / 2) /\ gives line2 (99 / 2) (42 / 5) 116.
Proof.
  split; (split; [apply utf8_text; vm_compute; reflexivity|]).
  - exists (txt "49.25"), (txt "8.4"), (txt "115.5"), (txt "0"), (txt "0"), (txt "-1e-3"), [], 0%R, 0%R, (- / 1000)%R.
    split; [apply fields_unique; vm_compute; reflexivity|]. repeat split; field_by.
  - exists (txt "49.5"), (txt "8.4"), (txt "116"), (txt "0"), (txt "0"), (txt ".5"), [txt "1.25
"], 0%R, 0%R, (/ 2)%R.
    split; [apply fields_unique; vm_compute; reflexivity|]. repeat split; field_by.
Qed.

Lemma ex_dir2 : seq_files_in_dir dir2 = IoOk [txt "0.txt"; txt "1.txt"] /\
  Forall2 (fun p r => exists b, contents dir2 p = IoOk b /\ gives b (fst (fst r)) (snd (fst r)) (snd r))
    [txt "0.txt"; txt "1.txt"] [(197 / 4, 42 / 5, 231 / 2); (99 / 2, 42 / 5, 116)]%R /\
  Forall (fun r : R * R * R => Rabs (fst (fst r)) <= 90 /\ Rabs (snd r) <= 1000000)%R [(197 / 4, 42 / 5, 231 / 2); (99 / 2, 42 / 5, 116)]%R.
Proof.
  destruct ex_gives as [G1 G2]. split; [vm_compute; reflexivity|]. split.
  - constructor; [exists line1; split; [vm_compute; reflexivity|exact G1]|].
    constructor; [exists line2; split; [vm_compute; reflexivity|exact G2]|constructor].
  - apply Forall_cons; [|apply Forall_cons; [|apply Forall_nil]]; cbn [fst snd]; rewrite !Rabs_pos_eq; lra.
Qed.

Lemma ex_line1 : is_text line1 /\
  fields_of line1 (t_plain :: txt "8.4" :: txt "115.5" :: txt "0" :: txt "0" :: t_milli :: []) /\
  number_text t_plain false (197 / 4) /\ number_text (txt "8.4") false (42 / 5) /\ number_text (txt "115.5") false (231 / 2) /\
  number_text (txt "0") false 0 /\ number_text t_milli true (/ 1000).
Proof.
  split; [apply utf8_text; vm_compute; reflexivity|]. split; [apply fields_unique; vm_compute; reflexivity|].
  repeat split; (eapply by_value; [reflexivity|vm_compute; reflexivity|real_by]).
Qed.

Definition line_break : bytes := txt "1 2 3 4 5 6
".
Lemma ex_break : is_text line_break /\ fields_of line_break [[x31]; [x32]; [x33]; [x34]; [x35]; [x36] ++ [x0a]].
Proof. split; [apply utf8_text; vm_compute; reflexivity|]. apply fields_unique. vm_compute. reflexivity. Qed.

Definition line_nan : bytes := txt "NaN 8.4 115.5 0 0 0".
Lemma ex_line_nan : is_text line_nan /\
  fields_of line_nan (([] ++ txt "NaN") :: txt "8.4" :: txt "115.5" :: txt "0" :: txt "0" :: txt "0" :: []) /\
  sign_text [] false /\ spells (txt "NaN") text_nan /\ field_value (txt "8.4") (42 / 5) /\ field_value (txt "115.5") (231 / 2) /\ field_value (txt "0") 0.
Proof.
  split; [apply utf8_text; vm_compute; reflexivity|]. split; [apply fields_unique; vm_compute; reflexivity|].
  split; [now left|]. split; [apply ex_words|]. repeat split; field_by.
Qed.
