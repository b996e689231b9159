(** Property C77: the exact [Debug] texts. *)

From Coq Require Import String List.
From Verif Require Import Base Utf8 Canon BodyHash TagList Header Domain Signature KeyRecord Crypto Format Sign Verify Report Debug
  SpecText SpecHeader SpecDomain SpecSign SpecVerify SpecDebug SpecShow VerifyFacts DebugUnique DebugParsed ShowProofs
  Lib Sample PropDomain PropOutput PropVerify PropDebug.
Import ListNotations.
Open Scope N_scope.

(** The texts of a result, on one line and indented, are exactly those specified. *)
Theorem C77_result : forall T r, tables_ok T -> result_typed r -> forall t,
  (compact (result_tree T r) = t <-> result_of T Flat r t) /\ (pretty (result_tree T r) = t <-> result_of T Indented r t).
Proof. intros T r K H t. split; [apply (result_exact T K Flat)|apply (result_exact T K Indented)]; exact H. Qed.
Print Assumptions C77_result.

(** The results of any verification are such. *)
Theorem C77_verification : forall E w headers config chunks rs, idna_keeps (env_idna E) -> world_ok w -> header_fields headers ->
  verify_message E w headers config chunks = Val (Some rs) -> Forall result_typed rs.
Proof. exact results_typed. Qed.
Print Assumptions C77_verification.

(** The same for headers, signatures, key records. *)
Theorem C77_header : forall T h, header_fields h -> forall t,
  (compact (header_tree T h) = t <-> header_of T Flat h t) /\ (pretty (header_tree T h) = t <-> header_of T Indented h t).
Proof.
  intros T h H t. assert (values_typed h) as V by (eapply Forall_impl; [|exact H]; intros f (_ & _ & B); exact B).
  split; [apply (header_exact T Flat)|apply (header_exact T Indented)]; exact V.
Qed.
Print Assumptions C77_header.

Theorem C77_signature : forall T s, tables_ok T -> signature_typed s -> forall t,
  (compact (sig_tree T s) = t <-> signature_of T Flat s t) /\ (pretty (sig_tree T s) = t <-> signature_of T Indented s t).
Proof. intros T r K H t. split; [apply (signature_exact T K Flat)|apply (signature_exact T K Indented)]; exact H. Qed.
Print Assumptions C77_signature.

Theorem C77_signature_error : forall T e, tables_ok T -> signature_error_typed e -> forall t,
  (compact (sig_error_tree T e) = t <-> signature_error_of T Flat e t)
  /\ (pretty (sig_error_tree T e) = t <-> signature_error_of T Indented e t).
Proof. intros T r K H t. split; [apply (signature_error_exact T K Flat)|apply (signature_error_exact T K Indented)]; exact H. Qed.
Print Assumptions C77_signature_error.

Theorem C77_record : forall T r, tables_ok T -> record_typed r -> forall t,
  (compact (record_tree T r) = t <-> record_of T Flat r t) /\ (pretty (record_tree T r) = t <-> record_of T Indented r t).
Proof. intros T r K H t. split; [apply (record_exact T K Flat)|apply (record_exact T K Indented)]; exact H. Qed.
Print Assumptions C77_record.

(** The same for what is given to and returned by the signer. *)
Theorem C77_output : forall T o, tables_ok T ->
  text_typed (so_header_name o) -> text_typed (so_header_value o) -> signature_typed (so_signature o) -> forall t,
  (compact (output_tree T o) = t <-> output_of T Flat o t) /\ (pretty (output_tree T o) = t <-> output_of T Indented o t).
Proof. intros T o K A B C t. split; [apply (output_exact T K Flat)|apply (output_exact T K Indented)]; assumption. Qed.
Print Assumptions C77_output.

Theorem C77_format : forall T f, tables_ok T -> text_typed (of_header_name f) -> text_typed (of_indentation f) -> forall t,
  (compact (format_tree T f) = t <-> format_of T Flat f t) /\ (pretty (format_tree T f) = t <-> format_of T Indented f t).
Proof. intros T o K A B t. split; [apply (format_exact T K Flat)|apply (format_exact T K Indented)]; assumption. Qed.
Print Assumptions C77_format.

Theorem C77_errors :
  (forall e t, record_error_name e = t <-> word_in record_error_words e t)
  /\ (forall e t, request_error_name e = t <-> word_in request_error_words e t)
  /\ (forall e t, signing_error_name e = t <-> word_in signing_error_words e t).
Proof.
  split; [intros e; exact (record_error_exact Flat e)|]. split; [intros e; exact (request_error_exact Flat e)|intros e; exact (signing_error_exact Flat e)].
Qed.
Print Assumptions C77_errors.

Definition show_examples : list str := Eval vm_compute in
  [pretty (format_tree sample_tables default_format);
   compact (format_tree sample_tables (mkFormat (lit "Dkim-Signature") 60 [32; 32] (Some (fun l => l)) true));
   compact (output_tree sample_tables output_sample);
   pretty (header_tree sample_tables [(lit "To", lit " a," ++ [13; 10] ++ lit " b"); (lit "X", [])]);
   pretty (header_tree sample_tables [])].
(** the hypotheses for an output, decided *)
Definition scalar_b (c : char) : bool := (c <? 0xD800) || ((0xE000 <=? c) && (c <? 0x110000)).
Lemma text_typed_b : forall s, forallb scalar_b s = true -> text_typed s.
Proof. intros s H. apply Forall_forall. intros c I. rewrite forallb_forall in H. specialize (H c I). unfold scalar_b in H. unfold is_scalar. lia. Qed.
Lemma bytes_b : forall s, forallb (fun b => b <? 256) s = true -> Forall is_byte s.
Proof. intros s H. apply Forall_forall. intros c I. rewrite forallb_forall in H. specialize (H c I). unfold is_byte. lia. Qed.

Example C77_example :
  Forall result_typed (sample_results default_config good_records)
  /\ signature_typed (so_signature output_sample) /\ text_typed (so_header_name output_sample) /\ text_typed (so_header_value output_sample)
  /\ show_examples =
     [lit "OutputFormat {
    header_name: ""DKIM-Signature"",
    line_width: 78,
    indentation: ""\t"",
    tag_order: None,
    ascii_only: false,
}";
      lit "OutputFormat { header_name: ""Dkim-Signature"", line_width: 60, indentation: ""  "", tag_order: Some(<closure>), ascii_only: true }";
      lit "SigningOutput { header_name: ""Dkim-Signature"", header_value: ""\r\n  foo=bar; z=From:\r\n  =20me@example.co\r\n  m|To:=20a,=0D=0A\r\n  =20b|Subject:=20\r\n  =3D=7C=3B; b=B34\r\n  LqK6qqqqqqqqqqqq\r\n  qqqqqqqqqqqqqqqq\r\n  qqqqqqqqqqqqqqqq\r\n  qqg==; bh=TkzB0g\r\n  ==; h=Subject:\r\n  To:From; x=1009;\r\n  t=1000; l=4;\r\n  c=relaxed/relaxed;\r\n  a=rsa-sha256;\r\n  s=a-very.long-selector.name;\r\n  i=me@x.example.com;\r\n  d=Example.com;\r\n  v=1"", signature: DkimSignature { algorithm: rsa-sha256, signature_data: Base64(B34LqK6qqqqqqqqqqqqqqqqqqqqqqqqqqqqqqqqqqqqqqqqqqqqqqg==), body_hash: Base64(TkzB0g==), canonicalization: relaxed/relaxed, domain: Example.com, signed_headers: [Subject, To, From], identity: Some(me@x.example.com), body_length: Some(4), selector: a-very.long-selector.name, timestamp: Some(1000), expiration: Some(1009), copied_headers: [(From, "" me@example.com""), (To, "" a,\r\n b""), (Subject, "" =|;"")], ext_tags: [(""foo"", ""bar"")] } }";
      lit "HeaderFields(
    [
        (
            To,
            "" a,\r\n b"",
        ),
        (
            X,
            """",
        ),
    ],
)";
      lit "HeaderFields(
    [],
)"].
Proof.
  split.
  { eapply results_typed with (E := ascii_env) (w := sample_world 20 good_records) (headers := signed_headers) (config := default_config)
      (chunks := output_chunks); [exact ascii_keeps|apply sample_world_ok|exact signed_header_fields|vm_compute; reflexivity]. }
  split.
  { unfold signature_typed, values_typed, texts_typed.
    remember (so_signature output_sample) as s eqn:E. vm_compute in E. subst s. cbn [s_signature_data s_body_hash s_copied_headers s_ext_tags].
    split; [apply bytes_b; reflexivity|]. split; [apply bytes_b; reflexivity|].
    split; repeat constructor; cbn [fst snd]; (apply bytes_b || apply text_typed_b); reflexivity. }
  split; [apply text_typed_b; vm_compute; reflexivity|]. split; [apply text_typed_b; vm_compute; reflexivity|reflexivity].
Qed.
