(** Properties C70-C72: [Debug] texts. *)

From Coq Require Import String List.
From Verif Require Import Base Utf8 Canon BodyHash TagList Header Domain Signature KeyRecord Crypto Format Sign Verify Report Programs Debug
  SpecText SpecHeader SpecCanon SpecDomain SpecFormat SpecSig SpecRecord SpecSign SpecVerify SpecReport SpecPrograms SpecOutput SpecDebug
  SigProofs RecordProofs VerifyRun VerifyFacts ProgramsProofs DebugProofs DebugTrees DebugUnique DebugParsed
  Lib Sample PropDomain PropSig PropRecord PropOutput PropVerify PropPrograms.
Import ListNotations.
Open Scope N_scope.

(** std's tables, in part *)
Definition sample_tables : Tables :=
  mkTables (fun c => ((32 <=? c) && (c <=? 126)) || ((160 <=? c) && negb (c =? 173) && negb ((8232 <=? c) && (c <=? 8238))))
    (fun c => (768 <=? c) && (c <=? 879)).
Lemma sample_tables_ok : tables_ok sample_tables.
Proof. intros c H. cbn. split; [split; lia|lia]. Qed.

(** ** C70 *)

(** The text of a field value is determined by its bytes. *)
Theorem C70_value_exact : forall T bs t, Forall is_byte bs ->
  bytes_debug T bs = t <-> exists e, t = [34] ++ e ++ [34] /\ value_shown T true bs e.
Proof. exact bytes_debug_exact. Qed.
Print Assumptions C70_value_exact.

Theorem C70_text_exact : forall T s t, tables_ok T -> Forall is_scalar s ->
  str_debug T s = t <-> exists e, t = [34] ++ e ++ [34] /\ text_shown T s e.
Proof. exact str_debug_exact. Qed.
Print Assumptions C70_text_exact.

(** It is a literal on one line, that stands for these bytes only. *)
Theorem C70_literal : forall T bs, tables_ok T -> Forall is_byte bs ->
  one_line (bytes_debug T bs) /\ (forall bs', quoted bs' (bytes_debug T bs) <-> bs' = bs).
Proof.
  intros T bs K B. pose proof (bytes_quoted T bs K B) as Q. split; [eapply quoted_one_line; exact Q|]. intros bs'. split.
  - intros Q'. destruct (quoted_prefix _ _ _ _ [] [] Q' Q eq_refl). assumption.
  - intros ->. exact Q.
Qed.
Print Assumptions C70_literal.

Theorem C70_plain : forall T s, tables_ok T -> Forall (plain T) s -> bytes_debug T (as_bytes s) = [34] ++ s ++ [34].
Proof. exact plain_debug. Qed.
Print Assumptions C70_plain.

(** The text of a header is on one line, and only this header has it. *)
Theorem C70_header : forall T h, tables_ok T -> header_fields h ->
  one_line (compact (header_tree T h))
  /\ printable_lines (pretty (header_tree T h))
  /\ (forall h', header_fields h' -> compact (header_tree T h') = compact (header_tree T h) -> h' = h).
Proof.
  assert (forall h, header_fields h -> Forall field_ok h) as X.
  { intros h H. eapply Forall_impl; [|exact H]. intros f (A & _ & B). split; assumption. }
  intros T h K H. pose proof (lined_header T K h (X h H)) as L.
  split; [apply compact_one_line; exact L|]. split; [apply pretty_lines; exact L|].
  intros h' H' E. eapply (reads_inj _ _ _ _ (reads_header T K)); [exact I|auto..].
Qed.
Print Assumptions C70_header.

(** src/util.rs:146-173 *)
Example C70_example :
  let show := bytes_debug sample_tables in
  map show [[]; lit "hoi du"; lit "x" ++ [10] ++ lit "y"; [9; 13]; as_bytes (u "你好"); [34; 39]; [97; 0; 254; 195; 188]]
  = [[34; 34]; [34] ++ lit "hoi du" ++ [34]; [34] ++ lit "x\ny" ++ [34]; [34] ++ lit "\t\r" ++ [34]; [34] ++ u "你好" ++ [34];
     [34; 92; 34; 92; 39; 34]; [34] ++ u "a\0\xfeü" ++ [34]]
  /\ str_debug sample_tables [34; 39] = [34; 92; 34; 39; 34]
  (* combining characters, not at the beginning; characters that are not printable *)
  /\ show (as_bytes [101; 769; 8232; 0x1F600; 27]) = [34; 101; 769] ++ lit "\u{2028}" ++ [0x1F600] ++ lit "\u{1b}" ++ [34]
  /\ show (as_bytes [769] ++ [255] ++ as_bytes [769; 769]) = [34] ++ lit "\u{301}\xff\u{301}" ++ [769; 34]
  /\ str_debug sample_tables [101; 769] = [34; 101] ++ lit "\u{301}" ++ [34]
  /\ compact (header_tree sample_tables [(lit "To", lit " a," ++ [13; 10] ++ lit " b"); (lit "X,", lit ")")])
     = lit "HeaderFields([(To, " ++ [34] ++ lit " a,\r\n b" ++ [34] ++ lit "), (X,, " ++ [34] ++ lit ")" ++ [34] ++ lit ")])"
  /\ Forall (plain sample_tables) (u "你好").
Proof.
  cbv zeta. repeat split; try (vm_compute; reflexivity).
  apply Forall_forall. intros c I. vm_compute in I.
  repeat (destruct I as [<-|I]; [unfold plain, is_scalar; repeat split; try reflexivity; lia|]). destruct I.
Qed.

(** ** C71 *)

(** The results of a verification are shown without control characters, and two
    results with the same text are the same, even if of different verifications. *)
Theorem C71_results : forall T E w headers config chunks rs, tables_ok T -> idna_keeps (env_idna E) -> world_ok w -> header_fields headers ->
  verify_message E w headers config chunks = Val (Some rs) ->
  Forall (fun r => one_line (compact (result_tree T r)) /\ printable_lines (pretty (result_tree T r))) rs.
Proof.
  intros T E w headers config chunks rs K Ki W H V. eapply Forall_impl; [|eapply results_shown; eauto].
  intros r R. apply (lined_result T K) in R. split; [apply compact_one_line|apply pretty_lines]; exact R.
Qed.
Print Assumptions C71_results.

Theorem C71_results_told_apart : forall T E w headers config chunks rs E' w' headers' config' chunks' rs' r r', tables_ok T ->
  idna_keeps (env_idna E) -> world_ok w -> header_fields headers -> verify_message E w headers config chunks = Val (Some rs) ->
  idna_keeps (env_idna E') -> world_ok w' -> header_fields headers' -> verify_message E' w' headers' config' chunks' = Val (Some rs') ->
  In r rs -> In r' rs' -> compact (result_tree T r) = compact (result_tree T r') -> r = r'.
Proof.
  intros T E w headers config chunks rs E' w' headers' config' chunks' rs' r r' K Ki W H V Ki' W' H' V' I I' X.
  apply results_shown in V; auto. apply results_shown in V'; auto. rewrite Forall_forall in V, V'.
  eapply (reads_inj _ _ _ _ (reads_result T K)); [exact Logic.I|auto..].
Qed.
Print Assumptions C71_results_told_apart.

(** Same for signatures and key records. *)
Theorem C71_signature : forall T pre idna s sig, tables_ok T -> idna_keeps idna -> Forall is_scalar s ->
  sig_from_str pre idna s = Val (Ok sig) ->
  one_line (compact (sig_tree T sig)) /\ printable_lines (pretty (sig_tree T sig))
  /\ (forall pre' idna' s' sig', idna_keeps idna' -> Forall is_scalar s' -> sig_from_str pre' idna' s' = Val (Ok sig') ->
        compact (sig_tree T sig') = compact (sig_tree T sig) -> sig' = sig).
Proof.
  intros T pre idna s sig K Ki S H. apply parsed_sig in H; auto. pose proof (lined_sig T K _ H) as L.
  split; [apply compact_one_line; exact L|]. split; [apply pretty_lines; exact L|].
  intros pre' idna' s' sig' Ki' S' H' X. apply parsed_sig in H'; auto. eapply (reads_inj _ _ _ _ (reads_sig T K)); [exact I|auto..].
Qed.
Print Assumptions C71_signature.

Theorem C71_record : forall T pre s r, tables_ok T -> Forall is_scalar s -> record_from_str pre s = Val (Ok r) ->
  one_line (compact (record_tree T r)) /\ printable_lines (pretty (record_tree T r))
  /\ (forall pre' s' r', Forall is_scalar s' -> record_from_str pre' s' = Val (Ok r') ->
        compact (record_tree T r') = compact (record_tree T r) -> r' = r).
Proof.
  intros T pre s r K S H. apply parsed_record in H; auto. pose proof (lined_record T K _ H) as L.
  split; [apply compact_one_line; exact L|]. split; [apply pretty_lines; exact L|].
  intros pre' s' r' S' H' X. apply parsed_record in H'; auto. eapply (reads_inj _ _ _ _ (reads_record T K)); [exact I|auto..].
Qed.
Print Assumptions C71_record.

Lemma ascii_keeps : idna_keeps ascii_idna.
Proof. exact (io_keeps _ ascii_idna_ok). Qed.

Definition results_shown_example : list (str * str) := Eval vm_compute in
  map (fun r => (compact (result_tree sample_tables r), pretty (result_tree sample_tables r))) (firstn 2 (sample_results default_config good_records)).
Example C71_example :
  tables_ok sample_tables /\ idna_keeps (env_idna ascii_env) /\ world_ok (sample_world 20 good_records) /\ header_fields signed_headers
  /\ verify_message ascii_env (sample_world 20 good_records) signed_headers default_config output_chunks
     = Val (Some (sample_results default_config good_records))
  /\ map fst results_shown_example =
     [lit "VerificationResult { status: Failure(DkimSignatureFormat(DkimSignatureError { kind: MissingSignatureTag, algorithm_str: Some(""rsa-sha256""), signature_data_str: None, domain_str: None, identity_str: None, selector_str: None })), index: 0, signature: None, key_record: None }";
      lit "VerificationResult { status: Success, index: 1, signature: Some(DkimSignature { algorithm: rsa-sha256, signature_data: Base64(B34LqK6qqqqqqqqqqqqqqqqqqqqqqqqqqqqqqqqqqqqqqqqqqqqqqg==), body_hash: Base64(TkzB0g==), canonicalization: relaxed/relaxed, domain: Example.com, signed_headers: [Subject, To, From], identity: Some(me@x.example.com), body_length: Some(4), selector: a-very.long-selector.name, timestamp: Some(1000), expiration: Some(1009), copied_headers: [(From, "" me@example.com""), (To, "" a,\r\n b""), (Subject, "" =|;"")], ext_tags: [(""foo"", ""bar"")] }), key_record: Some(DkimKeyRecord { hash_algorithms: [sha256], key_type: rsa, notes: None, key_data: Base64(AQc=), service_types: [*], flags: [], ext_tags: [] }) }"]
  /\ map snd results_shown_example =
     [lit "VerificationResult {
    status: Failure(
        DkimSignatureFormat(
            DkimSignatureError {
                kind: MissingSignatureTag,
                algorithm_str: Some(
                    ""rsa-sha256"",
                ),
                signature_data_str: None,
                domain_str: None,
                identity_str: None,
                selector_str: None,
            },
        ),
    ),
    index: 0,
    signature: None,
    key_record: None,
}";
      lit "VerificationResult {
    status: Success,
    index: 1,
    signature: Some(
        DkimSignature {
            algorithm: rsa-sha256,
            signature_data: Base64(
                B34LqK6qqqqqqqqqqqqqqqqqqqqqqqqqqqqqqqqqqqqqqqqqqqqqqg==,
            ),
            body_hash: Base64(
                TkzB0g==,
            ),
            canonicalization: relaxed/relaxed,
            domain: Example.com,
            signed_headers: [
                Subject,
                To,
                From,
            ],
            identity: Some(
                me@x.example.com,
            ),
            body_length: Some(
                4,
            ),
            selector: a-very.long-selector.name,
            timestamp: Some(
                1000,
            ),
            expiration: Some(
                1009,
            ),
            copied_headers: [
                (
                    From,
                    "" me@example.com"",
                ),
                (
                    To,
                    "" a,\r\n b"",
                ),
                (
                    Subject,
                    "" =|;"",
                ),
            ],
            ext_tags: [
                (
                    ""foo"",
                    ""bar"",
                ),
            ],
        },
    ),
    key_record: Some(
        DkimKeyRecord {
            hash_algorithms: [
                sha256,
            ],
            key_type: rsa,
            notes: None,
            key_data: Base64(
                AQc=,
            ),
            service_types: [
                *,
            ],
            flags: [],
            ext_tags: [],
        },
    ),
}"].
Proof.
  split; [exact sample_tables_ok|]. split; [exact ascii_keeps|]. split; [apply sample_world_ok|]. split; [exact signed_header_fields|].
  split; [vm_compute; reflexivity|]. split; vm_compute; reflexivity.
Qed.

(** the remaining names *)
Definition full_record : str :=
  lit "v=DKIM1; h=sha256:sha1; k=ed25519; n=a=20" ++ [92] ++ lit "; p=; s=email:*; t=y:s; x=1".
Definition kind_names : list str := map sig_kind_name
  [EUtf8Encoding; ETagListFormat; EIncompatibleVersion; EHistoricAlgorithm; EUnsupportedAlgorithm; EInvalidBase64;
   EEmptySignatureTag; EEmptyBodyHashTag; EUnsupportedCanonicalization; EInvalidDomain; EInvalidSignedHeaderName;
   EEmptySignedHeadersTag; EFromHeaderNotSigned; EInvalidIdentity; EInvalidBodyLength; EInvalidQueryMethod;
   ENoSupportedQueryMethods; EInvalidSelector; EInvalidTimestamp; EInvalidExpiration; EInvalidCopiedHeaderField;
   EMissingVersionTag; EMissingAlgorithmTag; EMissingSignatureTag; EMissingBodyHashTag; EMissingDomainTag;
   EMissingSignedHeadersTag; EMissingSelectorTag; EDomainMismatch; EExpirationNotAfterTimestamp].
Definition names_shown_example : list str := Eval vm_compute in
  match record_from_str true full_record with Val (Ok r) => [compact (record_tree sample_tables r)] | _ => [] end
  ++ match record_from_str true (lit "p=") with Val (Ok r) => [compact (record_tree sample_tables r)] | _ => [] end
  ++ map (fun a => compact (Text (alg_str a))) [RsaSha256; Ed25519Sha256; RsaSha1]
  ++ map (fun e => compact (error_tree sample_tables e))
       [VOverflow; NoKeyFound; InvalidKeyDomain; VTimeout; KeyLookup; KeyRecordFormat MissingKeyTag; WrongKeyType; KeyRevoked;
        DisallowedHashAlgorithm; VDomainMismatch; VerificationFailure CryptoVerificationFailure; VInsufficientContent; BodyHashMismatch;
        Policy KeyTooSmall]
  ++ map (fun i => compact (identity_tree i))
       [mkIdentity None (lit "example.org"); mkIdentity (Some (u "我.x#!")) (u "example.中国");
        mkIdentity (Some ([34] ++ u "x #$我" ++ [92; 34; 34])) (lit "example.org")]
  ++ map (fun bs => compact (base64_tree bs)) [[]; [1; 2; 3]].
Example C71_names_example :
  names_shown_example =
  [lit "DkimKeyRecord { hash_algorithms: [sha256, sha1], key_type: ed25519, notes: Some(""a \\""), key_data: Empty, service_types: [email, *], flags: [y, s], ext_tags: [(""x"", ""1"")] }";
   lit "DkimKeyRecord { hash_algorithms: [sha256, sha1], key_type: rsa, notes: None, key_data: Empty, service_types: [*], flags: [], ext_tags: [] }"]
  ++ map lit ["rsa-sha256"; "ed25519-sha256"; "rsa-sha1";
     "Overflow"; "NoKeyFound"; "InvalidKeyDomain"; "Timeout"; "KeyLookup"; "KeyRecordFormat(MissingKeyTag)"; "WrongKeyType"; "KeyRevoked";
     "DisallowedHashAlgorithm"; "DomainMismatch"; "VerificationFailure(VerificationFailure)"; "InsufficientContent"; "BodyHashMismatch";
     "Policy(KeyTooSmall)"; "@example.org"]%string
  ++ [u "我.x#!@example.中国"; [34] ++ u "x #$我\" ++ [34; 34] ++ lit "@example.org"] ++ map lit ["Empty"; "Base64(AQID)"]%string
  /\ kind_names = map lit
    ["Utf8Encoding"; "TagListFormat"; "IncompatibleVersion"; "HistoricAlgorithm"; "UnsupportedAlgorithm"; "InvalidBase64";
     "EmptySignatureTag"; "EmptyBodyHashTag"; "UnsupportedCanonicalization"; "InvalidDomain"; "InvalidSignedHeaderName";
     "EmptySignedHeadersTag"; "FromHeaderNotSigned"; "InvalidIdentity"; "InvalidBodyLength"; "InvalidQueryMethod";
     "NoSupportedQueryMethods"; "InvalidSelector"; "InvalidTimestamp"; "InvalidExpiration"; "InvalidCopiedHeaderField";
     "MissingVersionTag"; "MissingAlgorithmTag"; "MissingSignatureTag"; "MissingBodyHashTag"; "MissingDomainTag";
     "MissingSignedHeadersTag"; "MissingSelectorTag"; "DomainMismatch"; "ExpirationNotAfterTimestamp"]%string
  /\ map record_error_name
    [RecordFormat; KTagListFormat; MisplacedVersionTag; KIncompatibleVersion; InvalidHashAlgorithm; NoSupportedHashAlgorithms;
     UnsupportedKeyType; InvalidQuotedPrintable; KInvalidBase64; InvalidServiceType; NoSupportedServiceTypes; InvalidFlag;
     MissingKeyTag]
    = map lit ["RecordFormat"; "TagListFormat"; "MisplacedVersionTag"; "IncompatibleVersion"; "InvalidHashAlgorithm";
     "NoSupportedHashAlgorithms"; "UnsupportedKeyType"; "InvalidQuotedPrintable"; "InvalidBase64"; "InvalidServiceType";
     "NoSupportedServiceTypes"; "InvalidFlag"; "MissingKeyTag"]%string
  /\ map crypto_error_name [InvalidKey; InsufficientKeySize; CryptoVerificationFailure]
    = map lit ["InvalidKey"; "InsufficientKeySize"; "VerificationFailure"]%string
  /\ map policy_error_name [RequiredHeaderNotSigned; UnsignedHeaderOccurrence; UnsignedContent; SignatureExpired; TimestampInFuture; Sha1HashAlgorithm; KeyTooSmall]
    = map lit ["RequiredHeaderNotSigned"; "UnsignedHeaderOccurrence"; "UnsignedContent"; "SignatureExpired"; "TimestampInFuture";
     "Sha1HashAlgorithm"; "KeyTooSmall"]%string.
Proof. repeat split; vm_compute; reflexivity. Qed.

(** ** C72 *)

(** In the output of the verification program, the lines that begin like a heading
    or a status are exactly the headings and statuses of the results, in order:
    nothing in the message or in DNS produces another one. *)
Theorem C72_report : forall T E w program stdin headers body t e, world_ok w -> message_input stdin headers body ->
  dkimverify E (show_result T) w [program] stdin = Val (mkExit 0 t e) ->
  exists rs, verify_message E w headers program_config [body] = Val (Some rs)
    /\ lines_with (lit "    status: ") t = map verdict_line rs
    /\ Forall2 (fun j l => exists d, decimal_text d (N.of_nat j) /\ l = lit "SIGNATURE " ++ d)
         (seq 1 (length rs)) (lines_with (lit "SIGNATURE ") t).
Proof.
  intros T E w program stdin headers body t e W M H.
  apply (proj1 (dkimverify_spec E (show_result T) w program stdin W) headers body M) in H as (rs & t' & V & L & X).
  injection X as -> ->. exists rs. split; [exact V|]. apply (report_lines T 1). exact L.
Qed.
Print Assumptions C72_report.

(** Nor are there control characters in it. *)
Theorem C72_printable : forall T E w program stdin headers body t e, tables_ok T -> idna_keeps (env_idna E) -> world_ok w ->
  message_input stdin headers body -> dkimverify E (show_result T) w [program] stdin = Val (mkExit 0 t e) -> printable_lines t.
Proof.
  intros T E w program stdin headers body t e K Ki W M H.
  apply (proj1 (dkimverify_spec E (show_result T) w program stdin W) headers body M) in H as (rs & t' & V & L & X).
  injection X as -> ->. apply results_shown in V; [|assumption..|eapply input_fields; eauto].
  clear M. induction L as [|i r rs d t D L IH]; [constructor|]. inv V.
  assert (one_line d) as Od.
  { destruct D as (_ & D & _). eapply Forall_impl; [|exact D]. cbn beta. intros; lia. }
  rewrite !lines_only_app. split; [apply lines_only_const; reflexivity|]. split; [apply lines_only_const; reflexivity|].
  split; [apply lines_only_one; exact Od|]. split; [apply lines_only_const; reflexivity|].
  split; [apply pretty_lines; apply (lined_result T K); assumption|]. split; [apply lines_only_const; reflexivity|auto].
Qed.
Print Assumptions C72_printable.

(** a message with a signature that tries *)
Definition forging : list byte :=
  lit "DKIM-Signature: v=1; d=Example.com; s=a; a=rsa-sha256; h=from; b=AAAA; bh=AAAA;" ++ [10]
  ++ lit " z=From:=0A=0ASIGNATURE=202=0A=20=20=20=20status:=20Success,=0D;" ++ [10] ++ lit " y=a" ++ [10] ++ lit " SIGNATURE" ++ [10]
  ++ lit "     status: Success" ++ [10] ++ lit "DKIM-Signature: =" ++ [10] ++ lit "From: me@example.com" ++ [10; 10] ++ lit "Hi" ++ [10].
Definition forging_output : str := Eval vm_compute in
  match dkimverify ascii_env (show_result sample_tables) (sample_world 20 good_records) [lit "verify"] forging with
  | Val (mkExit 0 t _) => t
  | _ => []
  end.
Definition forging_lines : list str := Eval vm_compute in
  lines_with (lit "SIGNATURE ") forging_output ++ lines_with (lit "    status: ") forging_output
  ++ filter (begins (lit "                    " ++ [34])) (lines forging_output).
Example C72_example :
  dkimverify ascii_env (show_result sample_tables) (sample_world 20 good_records) [lit "verify"] forging = Val (mkExit 0 forging_output [])
  /\ (exists headers body, message_input forging headers body)
  /\ forging_lines =
     [lit "SIGNATURE 1"; lit "SIGNATURE 2"; lit "    status: Failure("; lit "    status: Failure(";
      lit "                    ""\n\nSIGNATURE 2\n    status: Success,\r"",";
      lit "                    ""y"",";
      lit "                    ""a\r\n SIGNATURE\r\n     status: Success"","].
Proof.
  split; [vm_compute; reflexivity|]. split; [|].
  - assert (read_message forging <> None) as N by (vm_compute; discriminate).
    destruct (read_message forging) as [[h b]|] eqn:R; [|contradiction]. exists h, (as_bytes b). apply (read_message_spec forging h (as_bytes b)). eauto.
  - vm_compute. reflexivity.
Qed.
