(** Properties C61 and C62: errors and results in words, key records in words. *)

From Coq Require Import String List.
From Verif Require Import Base Utf8 Base64 Canon BodyHash TagList Pem Signature KeyRecord Crypto Verify Sign Report
  SpecText SpecTag SpecSig SpecRecord SpecReport ReportProofs Base64Proofs Lib.
Import ListNotations.
Open Scope N_scope.

(** ** C61 *)

(** What is reported of an error, with its source, tells which error it is. *)
Theorem C61_told : forall e e', verification_error_text e = verification_error_text e' ->
  (forall s s', error_source e = Some s -> error_source e' = Some s' -> source_text s = source_text s') -> same_error e e'.
Proof. exact error_told. Qed.
Print Assumptions C61_told.

(** Errors have a source exactly if they carry another error. *)
Theorem C61_source : forall e s, error_source e = Some s <->
  (exists x, e = DkimSignatureFormat x /\ s = SourceSignature x) \/ (exists x, e = KeyRecordFormat x /\ s = SourceKeyRecord x)
  \/ (exists x, e = VerificationFailure x /\ s = SourceCrypto x) \/ (exists x, e = Policy x /\ s = SourcePolicy x).
Proof. exact error_sources. Qed.
Print Assumptions C61_source.

Theorem C61_signing : (forall e e', request_error_text e = request_error_text e' -> e = e')
  /\ (forall e e', signing_error_text e = signing_error_text e' -> e = e').
Proof. exact (conj request_text_inj signing_text_inj). Qed.
Print Assumptions C61_signing.

(** All texts are a single line of words. *)
Theorem C61_one_line : (forall e, one_line (verification_error_text e)) /\ (forall s, one_line (source_text s))
  /\ (forall e, one_line (request_error_text e)) /\ (forall e, one_line (signing_error_text e)).
Proof. exact texts_lines. Qed.
Print Assumptions C61_one_line.

(** The errors of the parts (tag lists, header fields, domains, keys, hashing, ...) can be told
    from their texts, too, whichever part they are from. *)
Theorem C61_parts : (forall e e', part_text e = part_text e' -> e = e') /\ forall e, one_line (part_text e).
Proof. exact (conj part_told part_lines). Qed.
Print Assumptions C61_parts.

(** Errors about a missing or an empty tag name the tag. *)
Theorem C61_tags : forall k n,
  (sig_kind_text k = lit n ++ lit "= tag missing" <-> tag_missing k n)
  /\ (sig_kind_text k = lit n ++ lit "= tag empty" <-> tag_empty k n).
Proof. intros k n. split; [apply missing_text|apply empty_text]. Qed.
Print Assumptions C61_tags.

(** Results are written in the words of RFC 8601; only success is written "pass". *)
Theorem C61_result : (forall r w, dkim_result_str r = lit w <-> result_word r w)
  /\ forall s, dkim_result_str (to_dkim_result s) = lit "pass" <-> s = Success.
Proof. split; [exact result_words|exact pass_word]. Qed.
Print Assumptions C61_result.

Example C61_example :
  let e := DkimSignatureFormat (mkSigError EMissingSelectorTag (Some (lit "rsa-sha256")) None None None None) in
  verification_error_text e = lit "unusable DKIM signature header"
  /\ option_map source_text (error_source e) = Some (lit "s= tag missing")
  /\ dkim_result_str (to_dkim_result (Failure e)) = lit "permerror"
  /\ ~ same_error e (DkimSignatureFormat (mkSigError EMissingDomainTag None None None None None)).
Proof.
  split; [reflexivity|]. split; [reflexivity|]. split; [reflexivity|]. intros H. inversion H; discriminate.
Qed.

(** The texts, as in the code. *)
Example C61_texts :
  map sig_kind_text
      [EUtf8Encoding; ETagListFormat; EIncompatibleVersion; EHistoricAlgorithm; EUnsupportedAlgorithm; EInvalidBase64;
       EEmptySignatureTag; EEmptyBodyHashTag; EUnsupportedCanonicalization; EInvalidDomain; EInvalidSignedHeaderName;
       EEmptySignedHeadersTag; EFromHeaderNotSigned; EInvalidIdentity; EInvalidBodyLength; EInvalidQueryMethod;
       ENoSupportedQueryMethods; EInvalidSelector; EInvalidTimestamp; EInvalidExpiration; EInvalidCopiedHeaderField;
       EMissingVersionTag; EMissingAlgorithmTag; EMissingSignatureTag; EMissingBodyHashTag; EMissingDomainTag;
       EMissingSignedHeadersTag; EMissingSelectorTag; EDomainMismatch; EExpirationNotAfterTimestamp]
     = map lit ["signature not UTF-8 encoded"; "ill-formed tag list"; "incompatible version"; "historic signature algorithm";
       "unsupported signature algorithm"; "invalid Base64 string"; "b= tag empty"; "bh= tag empty";
       "unsupported canonicalization"; "invalid signing domain"; "invalid signed header name"; "h= tag empty";
       "From header not signed"; "invalid signing identity"; "invalid body length"; "invalid query method";
       "no supported query methods"; "invalid selector"; "invalid timestamp"; "invalid expiration";
       "invalid header field in z= tag"; "v= tag missing"; "a= tag missing"; "b= tag missing"; "bh= tag missing";
       "d= tag missing"; "h= tag missing"; "s= tag missing"; "domain mismatch"; "expiration not after timestamp"]%string
  /\ map key_record_error_text
      [RecordFormat; KTagListFormat; MisplacedVersionTag; KIncompatibleVersion; InvalidHashAlgorithm;
       NoSupportedHashAlgorithms; UnsupportedKeyType; InvalidQuotedPrintable; KInvalidBase64; InvalidServiceType;
       NoSupportedServiceTypes; InvalidFlag; MissingKeyTag]
     = map lit ["ill-formed key record"; "ill-formed tag list"; "v= tag not initial"; "incompatible version";
       "invalid hash algorithm"; "no supported hash algorithms"; "unsupported key type"; "invalid Quoted-Printable string";
       "invalid Base64 string"; "invalid service type"; "no supported service types"; "invalid flag"; "p= tag missing"]%string
  /\ map crypto_error_text
      [InvalidKey; InsufficientKeySize; CryptoVerificationFailure]
     = map lit ["invalid key data"; "key too small"; "signature did not verify"]%string
  /\ map policy_error_text
      [RequiredHeaderNotSigned; UnsignedHeaderOccurrence; UnsignedContent; SignatureExpired; TimestampInFuture;
       Sha1HashAlgorithm; KeyTooSmall]
     = map lit ["required header not signed"; "unsigned occurrence of signed header"; "unsigned content in message body";
       "signature expired"; "timestamp in future"; "SHA-1 hash algorithm not acceptable"; "public key too small"]%string
  /\ map verification_error_text
      [DkimSignatureFormat (mkSigError EDomainMismatch None None None None None); VOverflow; NoKeyFound; InvalidKeyDomain;
       VTimeout; KeyLookup; KeyRecordFormat MissingKeyTag; WrongKeyType; KeyRevoked; DisallowedHashAlgorithm;
       VDomainMismatch; VerificationFailure InvalidKey; VInsufficientContent; BodyHashMismatch; Policy KeyTooSmall]
     = map lit ["unusable DKIM signature header"; "integer too large"; "no key record found"; "invalid key record domain name";
       "key record lookup timed out"; "key record lookup failed"; "unusable public key record";
       "wrong key type in key record"; "key revoked"; "hash algorithm disallowed in key record"; "domain mismatch";
       "signature verification failed"; "not enough message body content"; "body hash did not verify";
       "local policy violation"]%string
  /\ map request_error_text
      [ReqOverflow; MissingFromHeader; TooManyRequests; EmptyRequests; IncompatibleKeyType; FromHeaderNotSigned;
       InvalidSignedFieldName; ReqDomainMismatch; ZeroExpirationDuration; InvalidExtTags; InvalidDkimSignatureHeaderName;
       InvalidIndentationWhitespace]
     = map lit ["integer too large"; "no From header"; "too many sign requests"; "no sign requests"; "incompatible key type";
       "From header not signed"; "invalid signed header name"; "domain mismatch"; "zero expiration duration";
       "invalid extension tags"; "invalid DKIM-Signature header name"; "invalid indentation whitespace"]%string
  /\ map signing_error_text
      [SigOverflow; InsufficientContent; SigningFailure]
     = map lit ["integer too large"; "not enough message body content"; "signing failed"]%string
  /\ map tag_list_error_text
      [DuplicateTag; TagListSyntax]
     = map lit ["duplicate tag"; "ill-formed tag list"]%string
  /\ map body_hash_error_text
      [InsufficientInput; InputTruncated]
     = map lit ["insufficient input data"; "input not digested entirely"]%string
  /\ map decode_key_error_text
      [InvalidPemDocument; NotAPrivateKeyInfoDocument; InvalidKeyData; SkUnsupportedKeyType]
     = map lit ["invalid PEM document"; "not a PKCS#8 PrivateKeyInfo document"; "invalid private key data"; "unsupported key type"]%string
  /\ map plain_error_text
      [Base64Error; HeaderFieldError; QuotedPrintableError; ParseDomainError; ParseIdentityError; ParseAlgorithmError;
       CryptoSigningFailure; HasherInsufficientInput]
     = map lit ["failed to decode Base64 data"; "failed to process header field"; "failed to decode Quoted-Printable data";
       "could not parse domain name"; "could not parse identity"; "could not parse algorithm name";
       "failed to perform signing"; "not enough input data"]%string.
Proof. repeat split. Qed.

(** ** C62 *)

(** A key record written with the canonical names of its parts reads back the same. *)
Theorem C62_read_back : forall pre r p, writable pre r -> base64 (k_key_data r) p ->
  record_from_str pre (written_tags (record_tags hash_alg_str key_type_str service_type_str selector_flag_str r p)) = Val (Ok r).
Proof. exact record_round_trip. Qed.
Print Assumptions C62_read_back.

(** So what is written tells what the record is. *)
Theorem C62_told : forall pre r r' p p', writable pre r -> writable pre r' -> base64 (k_key_data r) p -> base64 (k_key_data r') p' ->
  written_tags (record_tags hash_alg_str key_type_str service_type_str selector_flag_str r p)
  = written_tags (record_tags hash_alg_str key_type_str service_type_str selector_flag_str r' p') -> r = r'.
Proof. exact record_told. Qed.
Print Assumptions C62_told.

Definition sample_key_record : KeyRecord :=
  mkKeyRecord [Sha256; Sha256] Ed25519 None [1; 2; 255; 0] [SvcEmail; SvcAny] [NoSubdomains; Testing] [(lit "g", []); (lit "x_9", lit "a=b")].

Example C62_example :
  writable false sample_key_record
  /\ exists p, base64 (k_key_data sample_key_record) p
     /\ written_tags (record_tags hash_alg_str key_type_str service_type_str selector_flag_str sample_key_record p)
        = lit "v=DKIM1; h=sha256:sha256; k=ed25519; p=AQL/AA==; s=email:*; t=s:y; g=; x_9=a=b".
Proof.
  split.
  - split; [discriminate|]. split; [cbn; intros _ [|[|[]]]; discriminate|]. split; [repeat constructor; unfold is_byte; lia|].
    split; [discriminate|]. split; [reflexivity|]. split.
    + repeat (constructor; [cbn; intuition discriminate|]). constructor.
    + constructor; [|constructor; [|constructor]]; (split; [|split; [|cbn; intuition discriminate]]).
      * change (tag_name_text [103]). exists 103, []. split; [reflexivity|]. split; [unfold alpha; lia|constructor].
      * left. reflexivity.
      * change (tag_name_text [120; 95; 57]). exists 120, [95; 57]. split; [reflexivity|]. split; [unfold alpha; lia|repeat constructor; unfold alnum_, alpha; lia].
      * right. apply OutputParse.lit_value; [discriminate|reflexivity].
  - exists (encode_base64 [1; 2; 255; 0]). split; [apply encode_base64_spec; repeat constructor; unfold is_byte; lia|reflexivity].
Qed.
