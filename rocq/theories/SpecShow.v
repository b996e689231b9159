(** Specification of the layout of [Debug] texts, in both forms ([{:?}] on one
    line, [{:#?}] indented), and of what the texts of signatures, key records,
    results and options consist of. *)

From Coq Require Import String List.
From Verif Require Import Base Utf8 Base64 Canon BodyHash Header Domain Signature KeyRecord Crypto Format Sign Verify Report Debug
  SpecText SpecFormat SpecDebug.

(** ** Layout *)

Inductive style := Flat | Indented.

(** separated by commas *)
Inductive listed : list str -> str -> Prop :=
| ls_nil : listed [] []
| ls_one : forall x, listed [x] x
| ls_more : forall x xs t, xs <> [] -> listed xs t -> listed (x :: xs) (x ++ lit ", " ++ t).

(** each followed by a comma, on lines of its own, which are indented *)
Definition indented_lines (x : str) : list str := map (fun l => lit "    " ++ l) (lines (x ++ lit ",")).
Definition block (xs : list str) : str := concat (map (fun l => l ++ [10]) (flat_map indented_lines xs)).

(** items between brackets; [sp] are the blanks inside the brackets on one line *)
Definition bracketed (st : style) (opening sp : str) (xs : list str) (closing t : str) : Prop :=
  match st with
  | Flat => exists m, listed xs m /\ t = opening ++ sp ++ m ++ sp ++ closing
  | Indented => t = opening ++ (if is_nil xs then [] else [10] ++ block xs) ++ closing
  end.

(** what is shown is a predicate for the text of each part *)
Definition struct_of (st : style) (name : string) (fields : list (string * (str -> Prop))) (t : str) : Prop :=
  exists xs, Forall2 (fun f x => exists v, snd f v /\ x = lit (fst f) ++ lit ": " ++ v) fields xs
    /\ bracketed st (lit name ++ lit " {") [32] xs (lit "}") t.
Definition tuple_of (st : style) (name : string) (parts : list (str -> Prop)) (t : str) : Prop :=
  exists xs, Forall2 (fun p x => p x) parts xs /\ bracketed st (lit name ++ lit "(") [] xs (lit ")") t.
Definition list_of {A} (st : style) (shown : A -> str -> Prop) (l : list A) (t : str) : Prop :=
  exists xs, Forall2 shown l xs /\ bracketed st (lit "[") [] xs (lit "]") t.
Definition option_of {A} (st : style) (shown : A -> str -> Prop) (o : option A) (t : str) : Prop :=
  match o with
  | None => t = lit "None"
  | Some a => tuple_of st "Some" [shown a] t
  end.

Definition word (w : string) (t : str) : Prop := t = lit w.
Definition as_is (s t : str) : Prop := t = s.
Definition number_of (n : N) (t : str) : Prop := decimal_text t n.
Definition in_quotes (T : Tables) (s t : str) : Prop := exists e, t = [34] ++ e ++ [34] /\ text_shown T s e.
Definition value_in_quotes (T : Tables) (bs : list byte) (t : str) : Prop := exists e, t = [34] ++ e ++ [34] /\ value_shown T true bs e.
Definition base64_of (st : style) (bs : list byte) (t : str) : Prop :=
  match bs with
  | [] => t = lit "Empty"
  | _ => tuple_of st "Base64" [base64 bs] t
  end.
Definition tag_of (T : Tables) (st : style) (nv : str * str) (t : str) : Prop :=
  tuple_of st "" [in_quotes T (fst nv); in_quotes T (snd nv)] t.
Definition field_of (T : Tables) (st : style) (nv : str * list byte) (t : str) : Prop :=
  tuple_of st "" [as_is (fst nv); value_in_quotes T (snd nv)] t.

(** ** Header fields *)

Definition header_of (T : Tables) (st : style) (h : list HeaderField) (t : str) : Prop :=
  tuple_of st "HeaderFields" [list_of st (field_of T st) h] t.

(** ** Signatures *)

Definition algorithm_word (a : SigningAlg) : string :=
  match a with RsaSha256 => "rsa-sha256" | Ed25519Sha256 => "ed25519-sha256" | RsaSha1 => "rsa-sha1" end.
Definition canon_word (c : CanonAlg) : string := match c with Simple => "simple" | Relaxed => "relaxed" end.
Definition canonicalization_of (c : Canonicalization) (t : str) : Prop :=
  t = lit (canon_word (c_header c)) ++ lit "/" ++ lit (canon_word (c_body c)).
Definition identity_of (i : Identity) (t : str) : Prop :=
  match id_local_part i with
  | Some l => t = l ++ lit "@" ++ id_domain i
  | None => t = lit "@" ++ id_domain i
  end.

Definition signature_of (T : Tables) (st : style) (s : DkimSig) : str -> Prop :=
  struct_of st "DkimSignature"
    [("algorithm", word (algorithm_word (s_algorithm s)));
     ("signature_data", base64_of st (s_signature_data s));
     ("body_hash", base64_of st (s_body_hash s));
     ("canonicalization", canonicalization_of (s_canonicalization s));
     ("domain", as_is (s_domain s));
     ("signed_headers", list_of st as_is (s_signed_headers s));
     ("identity", option_of st identity_of (s_identity s));
     ("body_length", option_of st number_of (s_body_length s));
     ("selector", as_is (s_selector s));
     ("timestamp", option_of st number_of (s_timestamp s));
     ("expiration", option_of st number_of (s_expiration s));
     ("copied_headers", list_of st (field_of T st) (s_copied_headers s));
     ("ext_tags", list_of st (tag_of T st) (s_ext_tags s))]%string.

Definition kind_words : list (SigErrorKind * string) :=
  [(EUtf8Encoding, "Utf8Encoding"); (ETagListFormat, "TagListFormat"); (EIncompatibleVersion, "IncompatibleVersion");
   (EHistoricAlgorithm, "HistoricAlgorithm"); (EUnsupportedAlgorithm, "UnsupportedAlgorithm"); (EInvalidBase64, "InvalidBase64");
   (EEmptySignatureTag, "EmptySignatureTag"); (EEmptyBodyHashTag, "EmptyBodyHashTag");
   (EUnsupportedCanonicalization, "UnsupportedCanonicalization"); (EInvalidDomain, "InvalidDomain");
   (EInvalidSignedHeaderName, "InvalidSignedHeaderName"); (EEmptySignedHeadersTag, "EmptySignedHeadersTag");
   (EFromHeaderNotSigned, "FromHeaderNotSigned"); (EInvalidIdentity, "InvalidIdentity"); (EInvalidBodyLength, "InvalidBodyLength");
   (EInvalidQueryMethod, "InvalidQueryMethod"); (ENoSupportedQueryMethods, "NoSupportedQueryMethods");
   (EInvalidSelector, "InvalidSelector"); (EInvalidTimestamp, "InvalidTimestamp"); (EInvalidExpiration, "InvalidExpiration");
   (EInvalidCopiedHeaderField, "InvalidCopiedHeaderField"); (EMissingVersionTag, "MissingVersionTag");
   (EMissingAlgorithmTag, "MissingAlgorithmTag"); (EMissingSignatureTag, "MissingSignatureTag");
   (EMissingBodyHashTag, "MissingBodyHashTag"); (EMissingDomainTag, "MissingDomainTag");
   (EMissingSignedHeadersTag, "MissingSignedHeadersTag"); (EMissingSelectorTag, "MissingSelectorTag");
   (EDomainMismatch, "DomainMismatch"); (EExpirationNotAfterTimestamp, "ExpirationNotAfterTimestamp")]%string.
Definition word_in {A} (words : list (A * string)) (a : A) (t : str) : Prop := exists w, In (a, w) words /\ t = lit w.

Definition signature_error_of (T : Tables) (st : style) (e : SigError) : str -> Prop :=
  struct_of st "DkimSignatureError"
    [("kind", word_in kind_words (se_kind e));
     ("algorithm_str", option_of st (in_quotes T) (se_algorithm_str e));
     ("signature_data_str", option_of st (in_quotes T) (se_signature_data_str e));
     ("domain_str", option_of st (in_quotes T) (se_domain_str e));
     ("identity_str", option_of st (in_quotes T) (se_identity_str e));
     ("selector_str", option_of st (in_quotes T) (se_selector_str e))]%string.

(** ** Key records *)

Definition hash_word (h : HashAlg) : string := match h with Sha1 => "sha1" | Sha256 => "sha256" end.
Definition key_word (k : KeyType) : string := match k with Rsa => "rsa" | Ed25519 => "ed25519" end.
Definition service_word (s : ServiceType) : string := match s with SvcAny => "*" | SvcEmail => "email" end.
Definition flag_word (f : SelectorFlag) : string := match f with Testing => "y" | NoSubdomains => "s" end.

Definition record_of (T : Tables) (st : style) (r : KeyRecord) : str -> Prop :=
  struct_of st "DkimKeyRecord"
    [("hash_algorithms", list_of st (fun h => word (hash_word h)) (k_hash_algorithms r));
     ("key_type", word (key_word (k_key_type r)));
     ("notes", option_of st (in_quotes T) (k_notes r));
     ("key_data", base64_of st (k_key_data r));
     ("service_types", list_of st (fun s => word (service_word s)) (k_service_types r));
     ("flags", list_of st (fun f => word (flag_word f)) (k_flags r));
     ("ext_tags", list_of st (tag_of T st) (k_ext_tags r))]%string.

Definition record_error_words : list (KeyRecordError * string) :=
  [(RecordFormat, "RecordFormat"); (KTagListFormat, "TagListFormat"); (MisplacedVersionTag, "MisplacedVersionTag");
   (KIncompatibleVersion, "IncompatibleVersion"); (InvalidHashAlgorithm, "InvalidHashAlgorithm");
   (NoSupportedHashAlgorithms, "NoSupportedHashAlgorithms"); (UnsupportedKeyType, "UnsupportedKeyType");
   (InvalidQuotedPrintable, "InvalidQuotedPrintable"); (KInvalidBase64, "InvalidBase64"); (InvalidServiceType, "InvalidServiceType");
   (NoSupportedServiceTypes, "NoSupportedServiceTypes"); (InvalidFlag, "InvalidFlag"); (MissingKeyTag, "MissingKeyTag")]%string.

(** ** Results *)

Definition crypto_error_words : list (CryptoVerificationError * string) :=
  [(InvalidKey, "InvalidKey"); (InsufficientKeySize, "InsufficientKeySize"); (CryptoVerificationFailure, "VerificationFailure")]%string.
Definition policy_error_words : list (PolicyError * string) :=
  [(RequiredHeaderNotSigned, "RequiredHeaderNotSigned"); (UnsignedHeaderOccurrence, "UnsignedHeaderOccurrence");
   (UnsignedContent, "UnsignedContent"); (SignatureExpired, "SignatureExpired"); (TimestampInFuture, "TimestampInFuture");
   (Sha1HashAlgorithm, "Sha1HashAlgorithm"); (KeyTooSmall, "KeyTooSmall")]%string.
Definition plain_error_words : list (VerificationError * string) :=
  [(VOverflow, "Overflow"); (NoKeyFound, "NoKeyFound"); (InvalidKeyDomain, "InvalidKeyDomain"); (VTimeout, "Timeout");
   (KeyLookup, "KeyLookup"); (WrongKeyType, "WrongKeyType"); (KeyRevoked, "KeyRevoked");
   (DisallowedHashAlgorithm, "DisallowedHashAlgorithm"); (VDomainMismatch, "DomainMismatch");
   (VInsufficientContent, "InsufficientContent"); (BodyHashMismatch, "BodyHashMismatch")]%string.

Inductive error_of (T : Tables) (st : style) : VerificationError -> str -> Prop :=
| eo_plain : forall e t, word_in plain_error_words e t -> error_of T st e t
| eo_signature : forall e t, tuple_of st "DkimSignatureFormat" [signature_error_of T st e] t -> error_of T st (DkimSignatureFormat e) t
| eo_record : forall e t, tuple_of st "KeyRecordFormat" [word_in record_error_words e] t -> error_of T st (KeyRecordFormat e) t
| eo_crypto : forall e t, tuple_of st "VerificationFailure" [word_in crypto_error_words e] t -> error_of T st (VerificationFailure e) t
| eo_policy : forall e t, tuple_of st "Policy" [word_in policy_error_words e] t -> error_of T st (Policy e) t.

Inductive status_of (T : Tables) (st : style) : VerificationStatus -> str -> Prop :=
| so_success : status_of T st Success (lit "Success")
| so_failure : forall e t, tuple_of st "Failure" [error_of T st e] t -> status_of T st (Failure e) t.

Definition result_of (T : Tables) (st : style) (r : VerificationResult) : str -> Prop :=
  struct_of st "VerificationResult"
    [("status", status_of T st (vr_status r));
     ("index", number_of (N.of_nat (vr_index r)));
     ("signature", option_of st (signature_of T st) (vr_signature r));
     ("key_record", option_of st (record_of T st) (vr_key_record r))]%string.

(** ** Signing *)

Definition request_error_words : list (RequestError * string) :=
  [(ReqOverflow, "Overflow"); (MissingFromHeader, "MissingFromHeader"); (TooManyRequests, "TooManyRequests");
   (EmptyRequests, "EmptyRequests"); (IncompatibleKeyType, "IncompatibleKeyType"); (FromHeaderNotSigned, "FromHeaderNotSigned");
   (InvalidSignedFieldName, "InvalidSignedFieldName"); (ReqDomainMismatch, "DomainMismatch");
   (ZeroExpirationDuration, "ZeroExpirationDuration"); (InvalidExtTags, "InvalidExtTags");
   (InvalidDkimSignatureHeaderName, "InvalidDkimSignatureHeaderName");
   (InvalidIndentationWhitespace, "InvalidIndentationWhitespace")]%string.
Definition signing_error_words : list (SigningError * string) :=
  [(SigOverflow, "Overflow"); (InsufficientContent, "InsufficientContent"); (SigningFailure, "SigningFailure")]%string.

Definition format_of (T : Tables) (st : style) (f : OutputFormat) : str -> Prop :=
  struct_of st "OutputFormat"
    [("header_name", in_quotes T (of_header_name f));
     ("line_width", number_of (N.of_nat (of_line_width f)));
     ("indentation", in_quotes T (of_indentation f));
     ("tag_order", option_of st (fun _ => word "<closure>") (of_tag_order f));
     ("ascii_only", word (if of_ascii_only f then "true" else "false"))]%string.

Definition output_of (T : Tables) (st : style) (o : SigningOutput) : str -> Prop :=
  struct_of st "SigningOutput"
    [("header_name", in_quotes T (so_header_name o));
     ("header_value", in_quotes T (so_header_value o));
     ("signature", signature_of T st (so_signature o))]%string.

(** ** Values as typed in Rust: bytes are bytes, characters are Unicode scalar values *)

Definition text_typed (s : str) : Prop := Forall is_scalar s.
Definition texts_typed (l : list (str * str)) : Prop := Forall (fun p => text_typed (fst p) /\ text_typed (snd p)) l.
Definition values_typed (l : list (str * list byte)) : Prop := Forall (fun p => Forall is_byte (snd p)) l.
Definition optional_typed (o : option str) : Prop := forall s, o = Some s -> text_typed s.

Definition signature_typed (s : DkimSig) : Prop :=
  Forall is_byte (s_signature_data s) /\ Forall is_byte (s_body_hash s)
  /\ values_typed (s_copied_headers s) /\ texts_typed (s_ext_tags s).
Definition signature_error_typed (e : SigError) : Prop :=
  optional_typed (se_algorithm_str e) /\ optional_typed (se_signature_data_str e) /\ optional_typed (se_domain_str e)
  /\ optional_typed (se_identity_str e) /\ optional_typed (se_selector_str e).
Definition record_typed (r : KeyRecord) : Prop :=
  optional_typed (k_notes r) /\ Forall is_byte (k_key_data r) /\ texts_typed (k_ext_tags r).
Definition result_typed (r : VerificationResult) : Prop :=
  (forall e, vr_status r = Failure (DkimSignatureFormat e) -> signature_error_typed e)
  /\ (forall s, vr_signature r = Some s -> signature_typed s)
  /\ (forall k, vr_key_record r = Some k -> record_typed k).
