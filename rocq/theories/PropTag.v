(** Properties C22-C23: tag=value lists. *)

From Coq Require Import String List.
From Verif Require Import Base Utf8 Canon Header Parse QP Base64 TagList SpecText SpecHeader SpecTag
  TagListProofs QPDecode Sample.
Import ListNotations.
Open Scope N_scope.

(** C22.  Exactly the grammar, with values in order and without the FWS. *)
Theorem C22_tag_list_exact : forall s ts,
  let tags := map (fun t => (tag_name t, tag_value t)) ts in
  tag_list_from_str s = Ok ts <-> tag_list_text s tags /\ NoDup (map fst tags).
Proof. exact tag_list_ok. Qed.
Print Assumptions C22_tag_list_exact.

Theorem C22_grammar_unambiguous : forall s t1 t2,
  tag_list_text s t1 -> tag_list_text s t2 -> t1 = t2.
Proof. exact tag_list_text_det. Qed.
Print Assumptions C22_grammar_unambiguous.

Theorem C22_syntax_error : forall s,
  tag_list_from_str s = Err TagListSyntax <-> ~ exists tags, tag_list_text s tags.
Proof. exact tag_list_syntax. Qed.
Print Assumptions C22_syntax_error.

Theorem C22_name_and_value_tests : forall s,
  (is_tag_name s = true <-> tag_name_text s)
  /\ (is_tag_value s = true <-> s = [] \/ tag_value_text s).
Proof. intros s. split; [apply is_tag_name_spec|apply is_tag_value_spec]. Qed.
Print Assumptions C22_name_and_value_tests.

(** every value found in a list is a tag value, as the functions interpreting
    values assert *)
Theorem C22_values_well_formed : forall s ts t,
  tag_list_from_str s = Ok ts -> In t ts ->
  is_tag_name (tag_name t) = true /\ is_tag_value (tag_value t) = true.
Proof.
  intros s ts t H Ht. apply tag_list_ok in H. destruct H as [H _].
  apply tag_list_values in H. rewrite Forall_forall in H.
  specialize (H (tag_name t, tag_value t)).
  rewrite is_tag_name_spec, is_tag_value_spec. apply H.
  apply (in_map (fun t => (tag_name t, tag_value t))). exact Ht.
Qed.
Print Assumptions C22_values_well_formed.

(** only the last tag's name and the equals sign *)
Theorem C22_name_and_equals : forall s t n,
  (strip_tag_name_and_equals s = Some (t, n) ->
   exists f1 f2, ofws f1 /\ ofws f2 /\ tag_name_text n /\ s = f1 ++ n ++ f2 ++ [61] ++ t)
  /\ (forall f1 f2, ofws f1 -> ofws f2 -> tag_name_text n -> s = f1 ++ n ++ f2 ++ [61] ++ t ->
      strip_tag_name_and_equals s = Some (t, n)).
Proof.
  intros s t n. split; [apply name_equals_sound|]. intros f1 f2 H1 H2 Hn ->. apply name_equals_complete; assumption.
Qed.
Print Assumptions C22_name_and_equals.

Theorem C22_colon_separated_exact : forall value items,
  value = [] \/ tag_value_text value ->
  (parse_colon_separated_value value = items <-> colon_list value items).
Proof. exact colon_separated_spec. Qed.
Print Assumptions C22_colon_separated_exact.

Theorem C22_copied_field_exact : forall value,
  exists r, parse_quoted_printable_header_field value = Val r /\
    forall n v, r = Some (n, v) <-> field_name n /\ qp_text value (n ++ 58 :: v).
Proof. exact qp_header_field_spec. Qed.
Print Assumptions C22_copied_field_exact.

Example C22_example :
  let s := lit " v = 1 ;a=" ++ [13; 10; 32] ++ lit "x" ++ [9] ++ lit "y" ++ [32] ++ lit ";e=;" in
  tag_list_from_str s = Ok [mkTag (lit "v") (lit "1"); mkTag (lit "a") (lit "x" ++ [9] ++ lit "y"); mkTag (lit "e") []]
  /\ tag_list_text s [(lit "v", lit "1"); (lit "a", lit "x" ++ [9] ++ lit "y"); (lit "e", [])]
  /\ tag_list_from_str (lit "a=1;;b=2") = Err TagListSyntax
  /\ tag_list_from_str (lit "_a=1") = Err TagListSyntax
  /\ tag_list_from_str [] = Err TagListSyntax
  /\ parse_colon_separated_value (lit "a: b" ++ [13; 10; 9] ++ lit ":") = [lit "a"; lit "b"; []]
  /\ colon_list (lit "a: b" ++ [13; 10; 9] ++ lit ":") [lit "a"; lit "b"; []].
Proof.
  split; [reflexivity|]. split.
  - apply (proj1 (tag_list_ok _ [mkTag (lit "v") (lit "1"); mkTag (lit "a") (lit "x" ++ [9] ++ lit "y"); mkTag (lit "e") []])).
    reflexivity.
  - repeat split; try reflexivity. apply colon_separated_spec; [|reflexivity].
    apply is_tag_value_spec. reflexivity.
Qed.

(** C23 *)
Theorem C23_duplicates_rejected : forall s,
  tag_list_from_str s = Err DuplicateTag <->
  exists tags, tag_list_text s tags /\ ~ NoDup (map fst tags).
Proof. exact tag_list_dup. Qed.
Print Assumptions C23_duplicates_rejected.

Example C23_example :
  tag_list_from_str (lit "a=1;b=2;a=3") = Err DuplicateTag
  /\ tag_list_from_str (lit "a=1;b=2;A=3") = Ok [mkTag (lit "a") (lit "1"); mkTag (lit "b") (lit "2"); mkTag (lit "A") (lit "3")].
Proof. split; reflexivity. Qed.
