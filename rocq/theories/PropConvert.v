(** Property C107: converting any output, also one made or altered by the caller,
    to a header field. *)

From Coq Require Import String List.
From Verif Require Import Base Utf8 Canon BodyHash Header Domain Signature KeyRecord Crypto TagList Format Sign
  SpecText SpecHeader HeaderProofs MessageProofs Lib Sample PropDomain PropSign PropOutput.
Import ListNotations.
Open Scope N_scope.

(** ** C107 *)

(** The conversion gives the name and the value as they are if they are well-formed. *)
Theorem C107_converted : forall o f,
  to_header_field o = Val f
  <-> f = (so_header_name o, as_bytes (so_header_value o))
      /\ field_name (so_header_name o) /\ field_body (as_bytes (so_header_value o)).
Proof.
  intros o f. unfold to_header_field. pose proof (field_name_new_spec (so_header_name o)) as N.
  pose proof (field_body_new_spec (as_bytes (so_header_value o))) as B.
  destruct (field_name_new _) as [n|].
  - destruct (proj1 (N n) eq_refl) as [-> Fn]. destruct (field_body_new _) as [b|].
    + destruct (proj1 (B b) eq_refl) as [-> Fb]. split; [intros H; injection H as <-; auto|intros (-> & _); reflexivity].
    + split; [discriminate|]. intros (_ & _ & Fb). discriminate (proj2 (B _) (conj eq_refl Fb)).
  - split; [discriminate|]. intros (_ & Fn & _). discriminate (proj2 (N _) (conj eq_refl Fn)).
Qed.
Print Assumptions C107_converted.

(** Otherwise it panics. *)
Theorem C107_panics : forall o,
  to_header_field o = Panic <-> ~ (field_name (so_header_name o) /\ field_body (as_bytes (so_header_value o))).
Proof.
  intros o. pose proof (C107_converted o) as H. destruct (to_header_field o) as [f|] eqn:X.
  - split; [discriminate|]. destruct (proj1 (H f) eq_refl) as (_ & F). intros G. destruct (G F).
  - split; [|reflexivity]. intros _ [F G]. discriminate (proj2 (H _) (conj eq_refl (conj F G))).
Qed.
Print Assumptions C107_panics.

(** What is converted is what is read from the formatted header, whether written
    on top of other fields or on its own. *)
Theorem C107_read : forall o f, to_header_field o = Val f -> Forall is_scalar (so_header_value o) ->
  header_fields_from_str (format_header o ++ [13; 10]) = Some [f]
  /\ forall s hs, header_fields_from_str s = Some hs ->
     header_fields_from_str (format_header o ++ [13; 10] ++ s) = Some (f :: hs).
Proof.
  intros o f H S. apply C107_converted in H as (-> & N & B). unfold format_header. split.
  - destruct (write_parse [(so_header_name o, so_header_value o)]) as [X _]; [discriminate|constructor; [auto|constructor]|].
    cbn [flat_map map fst snd] in X. rewrite app_nil_r in X. rewrite <- !app_assoc. exact X.
  - intros s hs X. pose proof (proj1 (written_top _ _ _ _ N B S X)) as Y. rewrite <- !app_assoc. exact Y.
Qed.
Print Assumptions C107_read.

(** The other direction fails: with bare LFs in the value, the formatted header is
    read as the field that the value with CRLFs gives, but the conversion panics. *)
Theorem C107_bare_lf_refuted : exists o f,
  header_fields_from_str (format_header o ++ [13; 10]) = Some [f] /\ to_header_field o = Panic
  /\ so_header_value o = without_cr (so_header_value output_sample)
  /\ to_header_field output_sample = Val f.
Proof.
  exists (mkOutput (so_header_name output_sample) (without_cr (so_header_value output_sample)) (so_signature output_sample)).
  eexists. split; [vm_compute; reflexivity|]. split; [vm_compute; reflexivity|]. split; [reflexivity|vm_compute; reflexivity].
Qed.
Print Assumptions C107_bare_lf_refuted.

(** With a value that does not end a folded line properly, with an empty name, and
    with a name that has a colon. *)
Example C107_example :
  let o := output_sample in
  let named n := mkOutput n (so_header_value o) (so_signature o) in
  let valued v := mkOutput (so_header_name o) v (so_signature o) in
  (exists f, to_header_field o = Val f) /\ Forall is_scalar (so_header_value o)
  /\ to_header_field (valued []) = Val (so_header_name o, [])
  /\ to_header_field (valued [32; 246]) = Val (so_header_name o, [32; 195; 182])
  /\ to_header_field (valued (lit " v=1;" ++ [13; 10])) = Panic
  /\ to_header_field (valued (lit " v=1;" ++ [13; 10; 32; 32])) = Panic
  /\ to_header_field (named []) = Panic /\ to_header_field (named (lit "a:b")) = Panic
  /\ format_header (named (lit "a:b")) = lit "a:b:" ++ so_header_value o.
Proof.
  cbv zeta. split; [eexists; vm_compute; reflexivity|]. split; [|repeat split; vm_compute; reflexivity].
  apply Forall_forall. intros c I.
  assert (forallb (fun c => c <? 128) (so_header_value output_sample) = true) as H by (vm_compute; reflexivity).
  rewrite forallb_forall in H. apply H in I. apply N.ltb_lt in I. unfold is_scalar. lia.
Qed.
