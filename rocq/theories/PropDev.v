(** Property C79: builds with debug assertions and overflow checks. *)

From Coq Require Import String List Permutation.
From Verif Require Import Base Utf8 Canon BodyHash Header Parse QP TagList Domain Signature KeyRecord Crypto Format Sign Verify Dev
  SpecText SpecCanon SpecHeader SpecDomain SpecSign SpecOutput SpecVerify HeaderProofs SigProofs DevProofs DevRunProofs Lib Sample
  PropDomain PropText PropSig PropRecord PropSign PropOutput PropVerify.
Import ListNotations.
Open Scope N_scope.

(** Reading signatures and key records: no assertion ever fails, whatever the
    text, and the results are those of a release build. *)
Theorem C79_reading : forall pre idna s,
  sig_from_str_dev pre idna s = sig_from_str pre idna s /\ sig_from_str_dev pre idna s <> Panic
  /\ record_from_str_dev pre s = record_from_str pre s /\ record_from_str_dev pre s <> Panic.
Proof.
  intros pre idna s. rewrite sig_dev, record_dev.
  destruct (C24_never_panics pre idna s) as (r & ->). destruct (C32_never_panics pre s) as (v & ->).
  repeat split; discriminate.
Qed.
Print Assumptions C79_reading.

(** The same for the texts on their own. *)
Theorem C79_texts : forall idna s,
  domain_new_dev idna s = domain_new idna s /\ selector_new_dev idna s = selector_new idna s
  /\ identity_new_dev idna s = identity_new idna s
  /\ (forall d d', eq_or_subdomain_of_dev idna d d' = eq_or_subdomain_of idna d d')
  /\ qp_decode_dev s = qp_decode s /\ decode_qp_section_dev s = decode_qp_section s.
Proof.
  intros idna s. split; [apply domain_dev|]. split; [apply selector_dev|]. split; [apply identity_dev|].
  split; [apply subdomain_dev|]. split; [apply qp_dev|apply section_dev].
Qed.
Print Assumptions C79_texts.

(** Canonicalizing a header field checks that the value is one, for the relaxed
    algorithm only. *)
Theorem C79_canonicalize : forall alg name value,
  (canonicalize_header_dev alg name value = Panic <-> alg = Relaxed /\ ~ field_body value)
  /\ (canonicalize_header_dev alg name value <> Panic ->
      canonicalize_header_dev alg name value = Val (canonicalize_header alg name value)).
Proof.
  intros alg name value. destruct (field_body_ok value) eqn:E.
  - apply field_body_ok_iff in E. rewrite canonicalize_dev by auto. split; [|auto]. split; [discriminate|tauto].
  - assert (~ field_body value) as N. { intros X. apply field_body_ok_iff in X. congruence. }
    destruct alg; [rewrite canonicalize_dev by auto|rewrite canonicalize_panic by exact N].
    + split; [|auto]. split; [discriminate|]. intros [X _]. discriminate X.
    + split; [tauto|]. intros X. contradiction X. reflexivity.
Qed.
Print Assumptions C79_canonicalize.

(** So does the hash of the header, of the value given for the signature field. *)
Theorem C79_data_hash : forall hash hash_alg alg headers selected name value, header_fields headers ->
  (compute_data_hash_dev hash hash_alg alg headers selected name value = Panic <-> alg = Relaxed /\ ~ field_body (as_bytes value))
  /\ (compute_data_hash_dev hash hash_alg alg headers selected name value <> Panic ->
      compute_data_hash_dev hash hash_alg alg headers selected name value
      = Val (compute_data_hash hash hash_alg alg headers selected name value)).
Proof.
  intros hash hash_alg alg headers selected name value Hh. unfold compute_data_hash_dev, canonicalize_headers_dev.
  rewrite canon_loop_dev by (apply Forall_rev; eapply Forall_impl; [|exact Hh]; cbv beta; tauto). cbn [bind].
  destruct (C79_canonicalize alg name (as_bytes value)) as [P V].
  destruct (canonicalize_header_dev alg name (as_bytes value)) as [c|]; cbn [bind].
  - split; [rewrite <- P; split; discriminate|]. intros _. specialize (V ltac:(discriminate)).
    injection V as ->. reflexivity.
  - split; [rewrite <- P; tauto|]. intros X. contradiction X. reflexivity.
Qed.
Print Assumptions C79_data_hash.

(** Signing. *)
Theorem C79_signing : forall E order headers rs chunks clock, idna_ok (env_idna E) -> crypto_typed E ->
  Forall (request_typed E) rs -> header_fields headers -> (forall l, Permutation (order l) l) ->
  sign_message_dev E order headers rs chunks clock = sign_message E order headers rs chunks clock
  /\ sign_message_dev E order headers rs chunks clock <> Panic.
Proof.
  intros E order headers rs chunks clock IO HC T Hh Ho. rewrite sign_message_dev_eq by assumption. split; [reflexivity|].
  destruct (C33_sign_exact E order headers rs chunks clock HC T Hh Ho) as (e & _ & X). destruct e as [e|].
  - rewrite X. discriminate.
  - destruct X as (results & -> & _). discriminate.
Qed.
Print Assumptions C79_signing.

(** Validation of requests. *)
Theorem C79_requests : forall E order headers rs,
  prepare_signing_dev E order headers rs = prepare_signing E order headers rs
  /\ forall r, validate_request_dev E r = validate_request E r.
Proof. intros E order headers rs. split; [apply prepare_dev|apply validate_dev]. Qed.
Print Assumptions C79_requests.

(** Verification. *)
Theorem C79_verification : forall E w headers config chunks, header_fields headers ->
  verify_message_dev E w headers config chunks = verify_message E w headers config chunks
  /\ verify_header_dev E w headers config = verify_header E w headers config
  /\ (world_ok w -> verify_message_dev E w headers config chunks <> Panic).
Proof.
  intros E w headers config chunks Hh. rewrite verify_message_dev_eq, verify_header_dev_eq by exact Hh.
  split; [reflexivity|]. split; [reflexivity|]. intros W.
  destruct (C41_results E w headers config chunks W Hh) as [[_ ->]|(_ & rs & -> & _)]; discriminate.
Qed.
Print Assumptions C79_verification.

(** ** Examples *)

Example C79_reading_example : exists s r,
  sig_from_str_dev false sample_idna sample_sig = Val (Ok s) /\ s_copied_headers s <> [] /\ is_some (s_identity s) = true
  /\ record_from_str_dev false (lit "v=DKIM1; h=sha256 : sha1; n=a=3Bb; p=QUJ D; s=email:*; t=y : s") = Val (Ok r)
  /\ k_notes r = Some (lit "a;b").
Proof. vm_compute. do 2 eexists. repeat split. discriminate. Qed.

Example C79_canonicalize_example :
  canonicalize_header_dev Relaxed (lit "To") (lit " a" ++ [13; 10] ++ lit " b ") = Val (lit "to:a b")
  /\ canonicalize_header_dev Simple (lit "To") (lit " a" ++ [10] ++ lit "b") = Val (lit "To: a" ++ [10] ++ lit "b")
  /\ canonicalize_header_dev Relaxed (lit "To") (lit " a" ++ [10] ++ lit "b") = Panic
  /\ canonicalize_header Relaxed (lit "To") (lit " a" ++ [10] ++ lit "b") = lit "to:a b".
Proof. vm_compute. auto. Qed.

Example C79_signing_example : idna_ok (env_idna ascii_env) /\ header_fields sample_headers
  /\ (let! r := sign_message_dev ascii_env (@rev _) sample_headers [output_request] output_chunks (fun _ => 1000) in
      Val (match r with Ok l => Ok (map (fun r => match r with Ok _ => true | Err _ => false end) l) | Err e => Err e end)) = Val (Ok [true]).
Proof. split; [exact ascii_idna_ok|]. split; [exact sample_header_fields|]. vm_compute. reflexivity. Qed.

Example C79_verification_example : header_fields signed_headers
  /\ (let! r := verify_message_dev ascii_env (sample_world 20 good_records) signed_headers default_config output_chunks in
      Val (option_map (map (fun r => to_dkim_result (vr_status r))) r)) = Val (Some [RPermerror; RPass; RPass]).
Proof. split; [exact signed_header_fields|]. vm_compute. reflexivity. Qed.

(** The assertions and checks are there: on arguments that the functions above
    never pass on, each of them fails. *)
Example C79_assertions :
  strip_suffix_dev (lit "ab") (lit "x") = Panic /\ strip_suffix_dev (lit "ab") (lit "b") = Val (lit "a")
  /\ checked_sub 1 2 = Panic /\ checked_sub 2 2 = Val 0%nat
  /\ u8_from_digits_dev 71 48 = Panic /\ u8_from_digits_dev 48 71 = Panic /\ u8_from_digits_dev 70 70 = Val 255
  /\ parse_colon_separated_value_dev (lit "a;b") = Panic /\ parse_base64_value_dev (lit " QUI=") = Panic
  /\ parse_qp_section_value_dev (lit "a ") = Panic /\ parse_quoted_printable_value_dev (lit " ") = Panic
  /\ parse_quoted_printable_header_field_dev (lit "a:;") = Panic
  /\ is_label_dev (lit "a.b") = Panic
  /\ (let fmt := mkFmt 78 [32] false false in
      format_tag_dev ([], 3%nat) fmt [233] (lit "x") = Panic
      /\ format_tag_h_dev ([], 3%nat) fmt [] = Panic /\ format_tag_z_dev ([], 3%nat) fmt [] = Panic)
  /\ insert_signature_data_dev (lit "b=") 3 (lit "DKIM-Signature") [1] 78 [32] = Panic.
Proof. vm_compute. repeat split. Qed.
