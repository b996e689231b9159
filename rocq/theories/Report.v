(** Model of how errors and results are reported: [Display], [source] and
    [canonical_str] in src/verifier/mod.rs, src/signature.rs, src/record.rs,
    src/crypto/mod.rs, src/signer/mod.rs, and [Display] of the errors of the parts. *)

From Coq Require Import String List.
From Verif Require Import Base TagList BodyHash Pem Signature KeyRecord Verify Sign.

(** src/signature.rs:741-776 [Display for DkimSignatureErrorKind] *)
Definition sig_kind_text (k : SigErrorKind) : str :=
  match k with
  | EUtf8Encoding => lit "signature not UTF-8 encoded"
  | ETagListFormat => lit "ill-formed tag list"
  | EIncompatibleVersion => lit "incompatible version"
  | EHistoricAlgorithm => lit "historic signature algorithm"
  | EUnsupportedAlgorithm => lit "unsupported signature algorithm"
  | EInvalidBase64 => lit "invalid Base64 string"
  | EEmptySignatureTag => lit "b= tag empty"
  | EEmptyBodyHashTag => lit "bh= tag empty"
  | EUnsupportedCanonicalization => lit "unsupported canonicalization"
  | EInvalidDomain => lit "invalid signing domain"
  | EInvalidSignedHeaderName => lit "invalid signed header name"
  | EEmptySignedHeadersTag => lit "h= tag empty"
  | EFromHeaderNotSigned => lit "From header not signed"
  | EInvalidIdentity => lit "invalid signing identity"
  | EInvalidBodyLength => lit "invalid body length"
  | EInvalidQueryMethod => lit "invalid query method"
  | ENoSupportedQueryMethods => lit "no supported query methods"
  | EInvalidSelector => lit "invalid selector"
  | EInvalidTimestamp => lit "invalid timestamp"
  | EInvalidExpiration => lit "invalid expiration"
  | EInvalidCopiedHeaderField => lit "invalid header field in z= tag"
  | EMissingVersionTag => lit "v= tag missing"
  | EMissingAlgorithmTag => lit "a= tag missing"
  | EMissingSignatureTag => lit "b= tag missing"
  | EMissingBodyHashTag => lit "bh= tag missing"
  | EMissingDomainTag => lit "d= tag missing"
  | EMissingSignedHeadersTag => lit "h= tag missing"
  | EMissingSelectorTag => lit "s= tag missing"
  | EDomainMismatch => lit "domain mismatch"
  | EExpirationNotAfterTimestamp => lit "expiration not after timestamp"
  end.

(** src/signature.rs:698-702 [Display for DkimSignatureError] *)
Definition sig_error_text (e : SigError) : str := sig_kind_text (se_kind e).

(** src/record.rs:112-130 [Display for DkimKeyRecordError] *)
Definition key_record_error_text (e : KeyRecordError) : str :=
  match e with
  | RecordFormat => lit "ill-formed key record"
  | KTagListFormat => lit "ill-formed tag list"
  | MisplacedVersionTag => lit "v= tag not initial"
  | KIncompatibleVersion => lit "incompatible version"
  | InvalidHashAlgorithm => lit "invalid hash algorithm"
  | NoSupportedHashAlgorithms => lit "no supported hash algorithms"
  | UnsupportedKeyType => lit "unsupported key type"
  | InvalidQuotedPrintable => lit "invalid Quoted-Printable string"
  | KInvalidBase64 => lit "invalid Base64 string"
  | InvalidServiceType => lit "invalid service type"
  | NoSupportedServiceTypes => lit "no supported service types"
  | InvalidFlag => lit "invalid flag"
  | MissingKeyTag => lit "p= tag missing"
  end.

(** src/crypto/mod.rs:326-334 [Display for VerificationError] *)
Definition crypto_error_text (e : CryptoVerificationError) : str :=
  match e with
  | InvalidKey => lit "invalid key data"
  | InsufficientKeySize => lit "key too small"
  | CryptoVerificationFailure => lit "signature did not verify"
  end.

(** src/verifier/mod.rs:319-331 [Display for PolicyError] *)
Definition policy_error_text (e : PolicyError) : str :=
  match e with
  | RequiredHeaderNotSigned => lit "required header not signed"
  | UnsignedHeaderOccurrence => lit "unsigned occurrence of signed header"
  | UnsignedContent => lit "unsigned content in message body"
  | SignatureExpired => lit "signature expired"
  | TimestampInFuture => lit "timestamp in future"
  | Sha1HashAlgorithm => lit "SHA-1 hash algorithm not acceptable"
  | KeyTooSmall => lit "public key too small"
  end.

(** src/verifier/mod.rs:355-375 [Display for VerificationError] *)
Definition verification_error_text (e : VerificationError) : str :=
  match e with
  | DkimSignatureFormat _ => lit "unusable DKIM signature header"
  | VOverflow => lit "integer too large"
  | NoKeyFound => lit "no key record found"
  | InvalidKeyDomain => lit "invalid key record domain name"
  | VTimeout => lit "key record lookup timed out"
  | KeyLookup => lit "key record lookup failed"
  | KeyRecordFormat _ => lit "unusable public key record"
  | WrongKeyType => lit "wrong key type in key record"
  | KeyRevoked => lit "key revoked"
  | DisallowedHashAlgorithm => lit "hash algorithm disallowed in key record"
  | VDomainMismatch => lit "domain mismatch"
  | VerificationFailure _ => lit "signature verification failed"
  | VInsufficientContent => lit "not enough message body content"
  | BodyHashMismatch => lit "body hash did not verify"
  | Policy _ => lit "local policy violation"
  end.

(** src/verifier/mod.rs:377-398 [source] *)
Inductive ErrorSource :=
| SourceSignature (e : SigError)
| SourceKeyRecord (e : KeyRecordError)
| SourceCrypto (e : CryptoVerificationError)
| SourcePolicy (e : PolicyError).

Definition error_source (e : VerificationError) : option ErrorSource :=
  match e with
  | VOverflow | NoKeyFound | InvalidKeyDomain | VTimeout | KeyLookup | WrongKeyType | KeyRevoked
  | DisallowedHashAlgorithm | VDomainMismatch | VInsufficientContent | BodyHashMismatch => None
  | DkimSignatureFormat error => Some (SourceSignature error)
  | KeyRecordFormat error => Some (SourceKeyRecord error)
  | VerificationFailure error => Some (SourceCrypto error)
  | Policy error => Some (SourcePolicy error)
  end.

Definition source_text (s : ErrorSource) : str :=
  match s with
  | SourceSignature e => sig_error_text e
  | SourceKeyRecord e => key_record_error_text e
  | SourceCrypto e => crypto_error_text e
  | SourcePolicy e => policy_error_text e
  end.

(** src/signer/mod.rs:173-190 [Display for RequestError] *)
Definition request_error_text (e : RequestError) : str :=
  match e with
  | ReqOverflow => lit "integer too large"
  | MissingFromHeader => lit "no From header"
  | TooManyRequests => lit "too many sign requests"
  | EmptyRequests => lit "no sign requests"
  | IncompatibleKeyType => lit "incompatible key type"
  | FromHeaderNotSigned => lit "From header not signed"
  | InvalidSignedFieldName => lit "invalid signed header name"
  | ReqDomainMismatch => lit "domain mismatch"
  | ZeroExpirationDuration => lit "zero expiration duration"
  | InvalidExtTags => lit "invalid extension tags"
  | InvalidDkimSignatureHeaderName => lit "invalid DKIM-Signature header name"
  | InvalidIndentationWhitespace => lit "invalid indentation whitespace"
  end.

(** src/signer/mod.rs:386-394 [Display for SigningError] *)
Definition signing_error_text (e : SigningError) : str :=
  match e with
  | SigOverflow => lit "integer too large"
  | InsufficientContent => lit "not enough message body content"
  | SigningFailure => lit "signing failed"
  end.

(** src/tag_list.rs:37-44 [Display for ParseTagListError] *)
Definition tag_list_error_text (e : ParseTagListError) : str :=
  match e with
  | DuplicateTag => lit "duplicate tag"
  | TagListSyntax => lit "ill-formed tag list"
  end.

(** src/message_hash.rs:228-235 [Display for BodyHashError] *)
Definition body_hash_error_text (e : BodyHashError) : str :=
  match e with
  | InsufficientInput => lit "insufficient input data"
  | InputTruncated => lit "input not digested entirely"
  end.

(** src/crypto/mod.rs:180-189 [Display for DecodeSigningKeyError] *)
Definition decode_key_error_text (e : DecodeSigningKeyError) : str :=
  match e with
  | InvalidPemDocument => lit "invalid PEM document"
  | NotAPrivateKeyInfoDocument => lit "not a PKCS#8 PrivateKeyInfo document"
  | InvalidKeyData => lit "invalid private key data"
  | SkUnsupportedKeyType => lit "unsupported key type"
  end.

(** The other error types of the parts have one value each; in the model of the
    parts they are [None].
    src/util.rs:38 [Base64Error], src/header.rs:46 [HeaderFieldError],
    src/quoted_printable.rs:88 [QuotedPrintableError], src/signature.rs:44
    [ParseDomainError], 287 [ParseIdentityError], 442 [ParseAlgorithmError],
    src/crypto/mod.rs:304-306 [SigningError], src/crypto/hash.rs:45 [InsufficientInput] *)
Inductive PlainError :=
| Base64Error | HeaderFieldError | QuotedPrintableError | ParseDomainError | ParseIdentityError
| ParseAlgorithmError | CryptoSigningFailure | HasherInsufficientInput.

(** src/util.rs:40-44, src/header.rs:48-52, src/quoted_printable.rs:90-94,
    src/signature.rs:46-50, 289-293, 444-448, src/crypto/mod.rs:308-314,
    src/crypto/hash.rs:47-51 [Display] *)
Definition plain_error_text (e : PlainError) : str :=
  match e with
  | Base64Error => lit "failed to decode Base64 data"
  | HeaderFieldError => lit "failed to process header field"
  | QuotedPrintableError => lit "failed to decode Quoted-Printable data"
  | ParseDomainError => lit "could not parse domain name"
  | ParseIdentityError => lit "could not parse identity"
  | ParseAlgorithmError => lit "could not parse algorithm name"
  | CryptoSigningFailure => lit "failed to perform signing"
  | HasherInsufficientInput => lit "not enough input data"
  end.

(** an error of any of the parts *)
Inductive PartError :=
| PartTagList (e : ParseTagListError)
| PartBodyHash (e : BodyHashError)
| PartKey (e : DecodeSigningKeyError)
| PartPlain (e : PlainError).

Definition part_text (e : PartError) : str :=
  match e with
  | PartTagList e => tag_list_error_text e
  | PartBodyHash e => body_hash_error_text e
  | PartKey e => decode_key_error_text e
  | PartPlain e => plain_error_text e
  end.

(** src/verifier/mod.rs:464-482 [CanonicalStr], [Display for DkimResult] *)
Definition dkim_result_str (r : DkimResult) : str :=
  match r with
  | RNone => lit "none"
  | RPass => lit "pass"
  | RFail => lit "fail"
  | RPolicy => lit "policy"
  | RNeutral => lit "neutral"
  | RTemperror => lit "temperror"
  | RPermerror => lit "permerror"
  end.

(** src/record.rs:40-47 [CanonicalStr for ServiceType] *)
Definition service_type_str (s : ServiceType) : str :=
  match s with SvcAny => lit "*" | SvcEmail => lit "email" end.

(** src/record.rs:70-77 [CanonicalStr for SelectorFlag] *)
Definition selector_flag_str (f : SelectorFlag) : str :=
  match f with Testing => lit "y" | NoSubdomains => lit "s" end.
