(** Properties C19-C21: header fields. *)

From Coq Require Import String List Lia.
From Verif Require Import Base Utf8 Lib Canon Header SpecCanon SpecHeader HeaderCanonProofs HeaderProofs Sample.
Import ListNotations.
Open Scope N_scope.

(** C19 *)
Theorem C19_field_name_accepted : forall s n,
  field_name_new s = Some n <-> n = s /\ field_name s.
Proof. exact field_name_new_spec. Qed.
Print Assumptions C19_field_name_accepted.

Theorem C19_equality_and_hash : forall a b c : FieldName,
  (name_eqb a b = true <-> same_name a b)
  /\ (name_eqb a b = true <-> field_name_hash_input a = field_name_hash_input b)
  /\ name_eqb a a = true
  /\ name_eqb a b = name_eqb b a
  /\ (name_eqb a b = true -> name_eqb b c = true -> name_eqb a c = true).
Proof.
  intros a b c. unfold field_name_hash_input. rewrite !lower_eq.
  assert (forall a b, name_eqb a b = true <-> same_name a b) as H by (intros; rewrite name_eqb_same; apply leqb_eq).
  repeat split; try apply H; try reflexivity.
  - apply eq_iff_eq_true. rewrite !H. unfold same_name. split; congruence.
  - rewrite !H. unfold same_name. congruence.
Qed.
Print Assumptions C19_equality_and_hash.

Example C19_example :
  field_name_new (lit "DKIM-Signature") = Some (lit "DKIM-Signature")
  /\ field_name_new (lit "a:b") = None /\ field_name_new (lit "a b") = None
  /\ field_name_new [] = None /\ field_name_new [246] = None
  /\ name_eqb (lit "FROM") (lit "from") = true /\ name_eqb [75] [8490] = false.
Proof. repeat split; reflexivity. Qed.

(** C20 *)
Theorem C20_field_body_accepted : forall v b,
  field_body_new v = Some b <-> b = v /\ field_body v.
Proof. exact field_body_new_spec. Qed.
Print Assumptions C20_field_body_accepted.

(** building from pairs *)
Theorem C20_from_pairs : forall l fs,
  header_fields_from_vec l = Some fs <->
  fs = l /\ l <> [] /\ Forall (fun f => field_name (fst f) /\ field_body (snd f)) l.
Proof.
  intros l fs. unfold header_fields_from_vec, header_fields_new.
  pose proof (convert_fields_spec l) as H. destruct (convert_fields l) as [l'|].
  - destruct (H l') as [X _]. destruct (X eq_refl) as [-> Y].
    destruct l; simpl; split; try easy.
    + intros Z. injection Z as <-. repeat split; auto. discriminate.
    + intros (-> & _). auto.
  - split; [discriminate|]. intros (-> & _ & Y). destruct (H l) as [_ X]. discriminate X; auto.
Qed.
Print Assumptions C20_from_pairs.

Theorem C20_header_fields_new : forall l fs,
  header_fields_new l = Some fs <-> fs = l /\ l <> [].
Proof.
  intros [|f l] fs; unfold header_fields_new; simpl; split; try easy.
  - intros H. injection H as <-. split; [auto|discriminate].
  - intros [-> _]. auto.
Qed.
Print Assumptions C20_header_fields_new.

Example C20_example :
  field_body (lit " a" ++ [13; 10; 9] ++ lit "b")
  /\ field_body_new (lit " a" ++ [13; 10; 9] ++ lit "b") = Some (lit " a" ++ [13; 10; 9] ++ lit "b")
  /\ field_body_new [] = Some []
  /\ field_body_new (lit "a" ++ [13; 10] ++ lit "b") = None
  /\ field_body_new (lit "a" ++ [13; 10; 32; 9]) = None
  /\ field_body_new (lit "a" ++ [10; 32] ++ lit "b") = None
  /\ field_body_new (lit "a" ++ [13; 32] ++ lit "b") = None
  /\ field_body_new [195; 182; 127] = None.
Proof.
  split; [|repeat split; reflexivity]. apply (field_body_new_spec _ (lit " a" ++ [13; 10; 9] ++ lit "b")). reflexivity.
Qed.

(** C21 *)
Theorem C21_parse_exact : forall s hs,
  header_fields_from_str s = Some hs <->
  exists fields, fields <> [] /\ Forall field_text_ok fields
    /\ lines_text (flat_map field_text_lines fields) s /\ hs = map field_text_value fields.
Proof. exact from_str_spec. Qed.
Print Assumptions C21_parse_exact.

Theorem C21_parsed_fields_valid : forall s hs,
  header_fields_from_str s = Some hs ->
  hs <> [] /\ Forall (fun f => field_name (fst f) /\ field_body (snd f)) hs.
Proof.
  intros s hs H. apply from_str_spec in H. destruct H as (fields & H1 & H2 & _ & ->). split.
  - destruct fields; [congruence|discriminate].
  - rewrite Forall_map. eapply Forall_impl; [|exact H2]. apply field_text_value_valid.
Qed.
Print Assumptions C21_parsed_fields_valid.

(** writing out fields with UTF-8 bodies *)
Theorem C21_round_trip : forall (fields : list (str * str)),
  fields <> [] ->
  Forall (fun f => field_name (fst f) /\ field_body (as_bytes (snd f)) /\ Forall is_scalar (snd f)) fields ->
  header_fields_from_str (flat_map (fun f => fst f ++ [58] ++ snd f ++ [13; 10]) fields)
  = Some (map (fun f => (fst f, as_bytes (snd f))) fields)
  /\ header_fields_from_str (flat_map (fun f => fst f ++ [58] ++ without_cr (snd f) ++ [10]) fields)
  = Some (map (fun f => (fst f, as_bytes (snd f))) fields).
Proof. exact write_parse. Qed.
Print Assumptions C21_round_trip.

Example C21_example :
  header_fields_from_str (lit "From: a" ++ [13; 10] ++ lit "X:" ++ [10; 32; 246; 10])
  = Some [(lit "From", lit " a"); (lit "X", [13; 10; 32; 195; 182])]
  /\ header_fields_from_str [] = None
  /\ header_fields_from_str (lit " From: a") = None
  /\ header_fields_from_str (lit "From: a" ++ [10; 10] ++ lit "b") = None.
Proof. repeat split; reflexivity. Qed.
