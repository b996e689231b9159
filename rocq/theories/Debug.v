(** Model of the [Debug] texts of header fields, signatures, key records, the
    results of verification and of signing, and the formatting options:
    src/util.rs, src/header.rs, src/signature.rs, src/record.rs,
    src/crypto/mod.rs, src/verifier/mod.rs, src/signer/mod.rs, together with
    the parts of std's [core::fmt] that they use.

    Not modelled: the [Debug] texts of [Config], [SignRequest], and of keys. *)

From Coq Require Import String List.
From Verif Require Import Base Utf8 Base64 Canon BodyHash Header Domain Signature KeyRecord Crypto Format Sign Verify Report.

(** ** std: escaping *)

(** lower-case hexadecimal digits *)
Definition hex_digit (v : N) : char := if v <? 10 then 48 + v else 87 + v.

Fixpoint hex_loop (fuel : nat) (n : N) (acc : str) : str :=
  match fuel with
  | O => acc
  | S fuel' =>
      let acc := hex_digit (n mod 16) :: acc in
      if n / 16 =? 0 then acc else hex_loop fuel' (n / 16) acc
  end.

(** std [char::escape_unicode] *)
Definition escape_unicode (c : char) : str := lit "\u{" ++ hex_loop 6 c [] ++ lit "}".

(** std's Unicode tables: [is_printable] and [is_grapheme_extended] *)
Record Tables := mkTables { tb_printable : char -> bool; tb_extended : char -> bool }.

Section WithTables.
Variable T : Tables.

(** std [char::escape_debug_ext] *)
Definition escape_debug_ext (extended single_quote double_quote : bool) (c : char) : str :=
  if c =? 0 then lit "\0"
  else if c =? 9 then lit "\t"
  else if c =? 13 then lit "\r"
  else if c =? 10 then lit "\n"
  else if c =? 92 then lit "\\"
  else if (c =? 34) && double_quote then [92; 34]
  else if (c =? 39) && single_quote then [92; 39]
  else if extended && tb_extended T c then escape_unicode c
  else if tb_printable T c then [c]
  else escape_unicode c.

(** std [str::escape_debug] *)
Definition escape_debug (s : str) : str :=
  match s with
  | [] => []
  | c :: s' => escape_debug_ext true true true c ++ flat_map (escape_debug_ext false true true) s'
  end.

(** std [Debug for str] *)
Definition str_debug (s : str) : str :=
  [34] ++ flat_map (escape_debug_ext true false true) s ++ [34].

(** src/util.rs:90-112 [Debug for BytesDebug]: the loop; each pass takes at least
    one byte *)
Fixpoint bytes_loop (fuel : nat) (bytes : list byte) : str :=
  match fuel with
  | O => []
  | S fuel' =>
      match bytes with
      | [] => []
      | b :: bytes' =>
          match next_utf8_chunk bytes with
          | Some chunk => escape_debug chunk ++ bytes_loop fuel' (skipn (str_len chunk) bytes)
          | None => lit "\x" ++ [hex_digit (b / 16); hex_digit (b mod 16)] ++ bytes_loop fuel' bytes'
          end
      end
  end.
Definition bytes_debug (bytes : list byte) : str := [34] ++ bytes_loop (length bytes) bytes ++ [34].

(** ** std: [DebugStruct], [DebugTuple], [DebugList] *)

Inductive Tree :=
| Text (s : str)
| Tuple (name : str) (fields : list Tree)
| Struct (name : str) (fields : list (str * Tree))
| Items (entries : list Tree).

Fixpoint comma_separated (l : list str) : str :=
  match l with
  | [] => []
  | [x] => x
  | x :: l' => x ++ lit ", " ++ comma_separated l'
  end.

(** [{:?}] *)
Fixpoint compact (t : Tree) : str :=
  match t with
  | Text s => s
  | Tuple name fields =>
      if is_nil fields then name
      else
        name ++ lit "(" ++ comma_separated (map compact fields)
        ++ (if is_nil name && Nat.eqb (length fields) 1 then lit "," else []) ++ lit ")"
  | Struct name fields =>
      if is_nil fields then name
      else name ++ lit " { " ++ comma_separated (map (fun '(n, v) => n ++ lit ": " ++ compact v) fields) ++ lit " }"
  | Items entries => lit "[" ++ comma_separated (map compact entries) ++ lit "]"
  end.

(** std [PadAdapter] *)
Fixpoint pad (on_newline : bool) (s : str) : str :=
  match s with
  | [] => []
  | c :: s' => (if on_newline then lit "    " else []) ++ c :: pad (c =? 10) s'
  end.

(** [{:#?}] *)
Fixpoint pretty (t : Tree) : str :=
  match t with
  | Text s => s
  | Tuple name fields =>
      if is_nil fields then name
      else name ++ lit "(" ++ [10] ++ flat_map (fun v => pad true (pretty v ++ lit "," ++ [10])) fields ++ lit ")"
  | Struct name fields =>
      if is_nil fields then name
      else
        name ++ lit " {" ++ [10]
        ++ flat_map (fun '(n, v) => pad true (n ++ lit ": " ++ pretty v ++ lit "," ++ [10])) fields ++ lit "}"
  | Items entries =>
      if is_nil entries then lit "[]"
      else lit "[" ++ [10] ++ flat_map (fun v => pad true (pretty v ++ lit "," ++ [10])) entries ++ lit "]"
  end.

(** std: [Debug] for [Option], numbers, strings, and pairs of strings *)
Definition option_tree {A} (f : A -> Tree) (o : option A) : Tree :=
  match o with
  | None => Text (lit "None")
  | Some a => Tuple (lit "Some") [f a]
  end.
Definition number_tree (n : N) : Tree := Text (dec_str n).
Definition str_tree (s : str) : Tree := Text (str_debug s).
Definition tags_tree (l : list (str * str)) : Tree :=
  Items (map (fun '(n, v) => Tuple [] [str_tree n; str_tree v]) l).

(** ** Header fields *)

(** src/header.rs:111-115 [Debug for FieldName] *)
Definition name_tree (n : FieldName) : Tree := Text n.

(** src/header.rs:185-189 [Debug for FieldBody] *)
Definition body_tree (b : list byte) : Tree := Text (bytes_debug b).

(** src/header.rs:209-210: derived for [HeaderFields] *)
Definition header_tree (h : list HeaderField) : Tree :=
  Tuple (lit "HeaderFields") [Items (map (fun '(n, b) => Tuple [] [name_tree n; body_tree b]) h)].

(** ** Signatures *)

(** src/util.rs:56-84 [Debug for Base64Debug] *)
Definition base64_tree (bytes : list byte) : Tree :=
  let s := encode_base64 bytes in
  if is_nil s then Text (lit "Empty") else Tuple (lit "Base64") [Text s].

(** src/signature.rs:346-360 [Display] and [Debug for Identity] *)
Definition identity_tree (i : Identity) : Tree :=
  Text (match id_local_part i with Some l => l | None => [] end ++ lit "@" ++ id_domain i).

(** src/signature.rs:1080-1088 [CopiedHeadersDebug] *)
Definition copied_tree (l : list (FieldName * list byte)) : Tree :=
  Items (map (fun '(n, v) => Tuple [] [name_tree n; Text (bytes_debug v)]) l).

(** src/signature.rs:1090-1109 [Debug for DkimSignature]; with 113-117, 194-198,
    515-519 and 628-632 for the domain, selector and algorithms *)
Definition sig_tree (s : DkimSig) : Tree :=
  Struct (lit "DkimSignature")
    [(lit "algorithm", Text (alg_str (s_algorithm s)));
     (lit "signature_data", base64_tree (s_signature_data s));
     (lit "body_hash", base64_tree (s_body_hash s));
     (lit "canonicalization", Text (canonicalization_str (s_canonicalization s)));
     (lit "domain", Text (s_domain s));
     (lit "signed_headers", Items (map name_tree (s_signed_headers s)));
     (lit "identity", option_tree identity_tree (s_identity s));
     (lit "body_length", option_tree number_tree (s_body_length s));
     (lit "selector", Text (s_selector s));
     (lit "timestamp", option_tree number_tree (s_timestamp s));
     (lit "expiration", option_tree number_tree (s_expiration s));
     (lit "copied_headers", copied_tree (s_copied_headers s));
     (lit "ext_tags", tags_tree (s_ext_tags s))].

(** src/signature.rs:707-739: derived for [DkimSignatureErrorKind] *)
Definition sig_kind_name (k : SigErrorKind) : str :=
  match k with
  | EUtf8Encoding => lit "Utf8Encoding"
  | ETagListFormat => lit "TagListFormat"
  | EIncompatibleVersion => lit "IncompatibleVersion"
  | EHistoricAlgorithm => lit "HistoricAlgorithm"
  | EUnsupportedAlgorithm => lit "UnsupportedAlgorithm"
  | EInvalidBase64 => lit "InvalidBase64"
  | EEmptySignatureTag => lit "EmptySignatureTag"
  | EEmptyBodyHashTag => lit "EmptyBodyHashTag"
  | EUnsupportedCanonicalization => lit "UnsupportedCanonicalization"
  | EInvalidDomain => lit "InvalidDomain"
  | EInvalidSignedHeaderName => lit "InvalidSignedHeaderName"
  | EEmptySignedHeadersTag => lit "EmptySignedHeadersTag"
  | EFromHeaderNotSigned => lit "FromHeaderNotSigned"
  | EInvalidIdentity => lit "InvalidIdentity"
  | EInvalidBodyLength => lit "InvalidBodyLength"
  | EInvalidQueryMethod => lit "InvalidQueryMethod"
  | ENoSupportedQueryMethods => lit "NoSupportedQueryMethods"
  | EInvalidSelector => lit "InvalidSelector"
  | EInvalidTimestamp => lit "InvalidTimestamp"
  | EInvalidExpiration => lit "InvalidExpiration"
  | EInvalidCopiedHeaderField => lit "InvalidCopiedHeaderField"
  | EMissingVersionTag => lit "MissingVersionTag"
  | EMissingAlgorithmTag => lit "MissingAlgorithmTag"
  | EMissingSignatureTag => lit "MissingSignatureTag"
  | EMissingBodyHashTag => lit "MissingBodyHashTag"
  | EMissingDomainTag => lit "MissingDomainTag"
  | EMissingSignedHeadersTag => lit "MissingSignedHeadersTag"
  | EMissingSelectorTag => lit "MissingSelectorTag"
  | EDomainMismatch => lit "DomainMismatch"
  | EExpirationNotAfterTimestamp => lit "ExpirationNotAfterTimestamp"
  end.

(** src/signature.rs:666-681: derived for [DkimSignatureError] *)
Definition sig_error_tree (e : SigError) : Tree :=
  Struct (lit "DkimSignatureError")
    [(lit "kind", Text (sig_kind_name (se_kind e)));
     (lit "algorithm_str", option_tree str_tree (se_algorithm_str e));
     (lit "signature_data_str", option_tree str_tree (se_signature_data_str e));
     (lit "domain_str", option_tree str_tree (se_domain_str e));
     (lit "identity_str", option_tree str_tree (se_identity_str e));
     (lit "selector_str", option_tree str_tree (se_selector_str e))].

(** ** Key records *)

(** src/record.rs:309-321 [Debug for DkimKeyRecord]; with 55-59, 85-89 and
    src/crypto/mod.rs:118-122, 165-169 for the services, flags and algorithms *)
Definition record_tree (r : KeyRecord) : Tree :=
  Struct (lit "DkimKeyRecord")
    [(lit "hash_algorithms", Items (map (fun h => Text (hash_alg_str h)) (k_hash_algorithms r)));
     (lit "key_type", Text (key_type_str (k_key_type r)));
     (lit "notes", option_tree str_tree (k_notes r));
     (lit "key_data", base64_tree (k_key_data r));
     (lit "service_types", Items (map (fun s => Text (service_type_str s)) (k_service_types r)));
     (lit "flags", Items (map (fun f => Text (selector_flag_str f)) (k_flags r)));
     (lit "ext_tags", tags_tree (k_ext_tags r))].

(** src/record.rs:93-110: derived for [DkimKeyRecordError] *)
Definition record_error_name (e : KeyRecordError) : str :=
  match e with
  | RecordFormat => lit "RecordFormat"
  | KTagListFormat => lit "TagListFormat"
  | MisplacedVersionTag => lit "MisplacedVersionTag"
  | KIncompatibleVersion => lit "IncompatibleVersion"
  | InvalidHashAlgorithm => lit "InvalidHashAlgorithm"
  | NoSupportedHashAlgorithms => lit "NoSupportedHashAlgorithms"
  | UnsupportedKeyType => lit "UnsupportedKeyType"
  | InvalidQuotedPrintable => lit "InvalidQuotedPrintable"
  | KInvalidBase64 => lit "InvalidBase64"
  | InvalidServiceType => lit "InvalidServiceType"
  | NoSupportedServiceTypes => lit "NoSupportedServiceTypes"
  | InvalidFlag => lit "InvalidFlag"
  | MissingKeyTag => lit "MissingKeyTag"
  end.

(** ** Verification results *)

(** src/crypto/mod.rs:319-324: derived *)
Definition crypto_error_name (e : CryptoVerificationError) : str :=
  match e with
  | InvalidKey => lit "InvalidKey"
  | InsufficientKeySize => lit "InsufficientKeySize"
  | CryptoVerificationFailure => lit "VerificationFailure"
  end.

(** src/verifier/mod.rs:280-317: derived *)
Definition policy_error_name (e : PolicyError) : str :=
  match e with
  | RequiredHeaderNotSigned => lit "RequiredHeaderNotSigned"
  | UnsignedHeaderOccurrence => lit "UnsignedHeaderOccurrence"
  | UnsignedContent => lit "UnsignedContent"
  | SignatureExpired => lit "SignatureExpired"
  | TimestampInFuture => lit "TimestampInFuture"
  | Sha1HashAlgorithm => lit "Sha1HashAlgorithm"
  | KeyTooSmall => lit "KeyTooSmall"
  end.

(** src/verifier/mod.rs:336-353: derived *)
Definition error_tree (e : VerificationError) : Tree :=
  match e with
  | DkimSignatureFormat e => Tuple (lit "DkimSignatureFormat") [sig_error_tree e]
  | VOverflow => Text (lit "Overflow")
  | NoKeyFound => Text (lit "NoKeyFound")
  | InvalidKeyDomain => Text (lit "InvalidKeyDomain")
  | VTimeout => Text (lit "Timeout")
  | KeyLookup => Text (lit "KeyLookup")
  | KeyRecordFormat e => Tuple (lit "KeyRecordFormat") [Text (record_error_name e)]
  | WrongKeyType => Text (lit "WrongKeyType")
  | KeyRevoked => Text (lit "KeyRevoked")
  | DisallowedHashAlgorithm => Text (lit "DisallowedHashAlgorithm")
  | VDomainMismatch => Text (lit "DomainMismatch")
  | VerificationFailure e => Tuple (lit "VerificationFailure") [Text (crypto_error_name e)]
  | VInsufficientContent => Text (lit "InsufficientContent")
  | BodyHashMismatch => Text (lit "BodyHashMismatch")
  | Policy e => Tuple (lit "Policy") [Text (policy_error_name e)]
  end.

(** src/verifier/mod.rs:193-199: derived *)
Definition status_tree (s : VerificationStatus) : Tree :=
  match s with
  | Success => Text (lit "Success")
  | Failure e => Tuple (lit "Failure") [error_tree e]
  end.

(** src/verifier/mod.rs:169-186: derived *)
Definition result_tree (r : VerificationResult) : Tree :=
  Struct (lit "VerificationResult")
    [(lit "status", status_tree (vr_status r));
     (lit "index", number_tree (N.of_nat (vr_index r)));
     (lit "signature", option_tree sig_tree (vr_signature r));
     (lit "key_record", option_tree record_tree (vr_key_record r))].

(** ** Signing *)

(** src/signer/mod.rs:155-171: derived *)
Definition request_error_name (e : RequestError) : str :=
  match e with
  | ReqOverflow => lit "Overflow"
  | MissingFromHeader => lit "MissingFromHeader"
  | TooManyRequests => lit "TooManyRequests"
  | EmptyRequests => lit "EmptyRequests"
  | IncompatibleKeyType => lit "IncompatibleKeyType"
  | FromHeaderNotSigned => lit "FromHeaderNotSigned"
  | InvalidSignedFieldName => lit "InvalidSignedFieldName"
  | ReqDomainMismatch => lit "DomainMismatch"
  | ZeroExpirationDuration => lit "ZeroExpirationDuration"
  | InvalidExtTags => lit "InvalidExtTags"
  | InvalidDkimSignatureHeaderName => lit "InvalidDkimSignatureHeaderName"
  | InvalidIndentationWhitespace => lit "InvalidIndentationWhitespace"
  end.

(** src/signer/mod.rs:377-384: derived *)
Definition signing_error_name (e : SigningError) : str :=
  match e with
  | SigOverflow => lit "Overflow"
  | InsufficientContent => lit "InsufficientContent"
  | SigningFailure => lit "SigningFailure"
  end.

(** std: [Debug for bool] *)
Definition bool_tree (b : bool) : Tree := Text (if b then lit "true" else lit "false").

(** src/signer/mod.rs:232-250 [Debug for OutputFormat], [ClosureDebug] *)
Definition format_tree (f : OutputFormat) : Tree :=
  Struct (lit "OutputFormat")
    [(lit "header_name", str_tree (of_header_name f));
     (lit "line_width", number_tree (N.of_nat (of_line_width f)));
     (lit "indentation", str_tree (of_indentation f));
     (lit "tag_order", option_tree (fun _ => Text (lit "<closure>")) (of_tag_order f));
     (lit "ascii_only", bool_tree (of_ascii_only f))].

(** src/signer/mod.rs:413-422: derived for [SigningOutput] *)
Definition output_tree (o : SigningOutput) : Tree :=
  Struct (lit "SigningOutput")
    [(lit "header_name", str_tree (so_header_name o));
     (lit "header_value", str_tree (so_header_value o));
     (lit "signature", sig_tree (so_signature o))].

(** examples/dkimverify.rs:56: formatting with [{:#?}] *)
Definition show_result (r : VerificationResult) : str := pretty (result_tree r).

End WithTables.
