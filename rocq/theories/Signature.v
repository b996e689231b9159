(** Model of src/signature.rs: algorithm names and [DkimSignature].  Definitions
    only.  The parameter [pre] is feature [pre-rfc8301]. *)

From Verif Require Import Base Utf8 Canon BodyHash Header TagList Domain.
From Coq Require Import String.

(** src/crypto/mod.rs:96-101 [KeyType] *)
Inductive KeyType := Rsa | Ed25519.

Definition key_type_eqb (a b : KeyType) : bool :=
  match a, b with Rsa, Rsa | Ed25519, Ed25519 => true | _, _ => false end.

(** src/crypto/mod.rs:103-110 *)
Definition key_type_str (k : KeyType) : str :=
  match k with Rsa => lit "rsa" | Ed25519 => lit "ed25519" end.

(** src/crypto/mod.rs:149-157 *)
Definition hash_alg_str (h : HashAlg) : str :=
  match h with Sha256 => lit "sha256" | Sha1 => lit "sha1" end.

(** src/crypto/mod.rs:140-146 [HashAlgorithm::all] *)
Definition all_hash_algs (pre : bool) : list HashAlg :=
  if pre then [Sha256; Sha1] else [Sha256].

(** src/signature.rs:454-462 [SigningAlgorithm] ([RsaSha1] with [pre-rfc8301]) *)
Inductive SigningAlg := RsaSha256 | Ed25519Sha256 | RsaSha1.

(** src/signature.rs:467-476 [from_parts] *)
Definition alg_from_parts (k : KeyType) (h : HashAlg) : option SigningAlg :=
  match k, h with
  | Rsa, Sha256 => Some RsaSha256
  | Ed25519, Sha256 => Some Ed25519Sha256
  | Rsa, Sha1 => Some RsaSha1
  | _, _ => None
  end.

(** src/signature.rs:479-486 [key_type] *)
Definition alg_key_type (a : SigningAlg) : KeyType :=
  match a with RsaSha256 => Rsa | Ed25519Sha256 => Ed25519 | RsaSha1 => Rsa end.

(** src/signature.rs:489-495 [hash_algorithm] *)
Definition alg_hash (a : SigningAlg) : HashAlg :=
  match a with RsaSha256 | Ed25519Sha256 => Sha256 | RsaSha1 => Sha1 end.

(** src/signature.rs:498-507 *)
Definition alg_str (a : SigningAlg) : str :=
  match a with
  | RsaSha256 => lit "rsa-sha256"
  | Ed25519Sha256 => lit "ed25519-sha256"
  | RsaSha1 => lit "rsa-sha1"
  end.

(** src/signature.rs:524-536 [FromStr for SigningAlgorithm] *)
Definition alg_from_str (pre : bool) (s : str) : option SigningAlg :=
  if eq_ignore_ascii_case s (lit "rsa-sha256") then Some RsaSha256
  else if eq_ignore_ascii_case s (lit "ed25519-sha256") then Some Ed25519Sha256
  else if pre && eq_ignore_ascii_case s (lit "rsa-sha1") then Some RsaSha1
  else None.

(** src/signature.rs:555-562 *)
Definition canon_alg_str (c : CanonAlg) : str :=
  match c with Simple => lit "simple" | Relaxed => lit "relaxed" end.

(** src/signature.rs:579-587 *)
Definition canon_alg_from_str (s : str) : option CanonAlg :=
  if eq_ignore_ascii_case s (lit "simple") then Some Simple
  else if eq_ignore_ascii_case s (lit "relaxed") then Some Relaxed
  else None.

(** src/signature.rs:601-607 [Canonicalization] *)
Record Canonicalization := mkCanon { c_header : CanonAlg; c_body : CanonAlg }.

(** src/signature.rs:609-620 *)
Definition canonicalization_str (c : Canonicalization) : str :=
  match c_header c, c_body c with
  | Simple, Simple => lit "simple/simple"
  | Simple, Relaxed => lit "simple/relaxed"
  | Relaxed, Simple => lit "relaxed/simple"
  | Relaxed, Relaxed => lit "relaxed/relaxed"
  end.

(** src/signature.rs:643-655 *)
Definition canonicalization_from_str (s : str) : option Canonicalization :=
  match split_once 47 s with
  | Some (header, body) =>
      match canon_alg_from_str header, canon_alg_from_str body with
      | Some h, Some b => Some (mkCanon h b)
      | _, _ => None
      end
  | None =>
      match canon_alg_from_str s with
      | Some h => Some (mkCanon h Simple)
      | None => None
      end
  end.

(** src/signature.rs:659 *)
Definition DKIM_SIGNATURE_NAME : str := lit "DKIM-Signature".

(** std [u64::from_str]: an optional plus sign, then digits, without overflow *)
Fixpoint parse_digits (acc : N) (s : str) : option N :=
  match s with
  | [] => Some acc
  | c :: s' =>
      if is_ascii_digit c then
        let acc' := acc * 10 + (c - 48) in
        if acc' <=? u64_max then parse_digits acc' s' else None
      else None
  end.
Definition parse_u64 (s : str) : option N :=
  let digits := match s with
                | c :: s' => if c =? 43 then s' else s
                | [] => []
                end in
  if is_nil digits then None else parse_digits 0 digits.

(** src/signature.rs:708-739 [DkimSignatureErrorKind] *)
Inductive SigErrorKind :=
| EUtf8Encoding | ETagListFormat | EIncompatibleVersion | EHistoricAlgorithm
| EUnsupportedAlgorithm | EInvalidBase64 | EEmptySignatureTag | EEmptyBodyHashTag
| EUnsupportedCanonicalization | EInvalidDomain | EInvalidSignedHeaderName
| EEmptySignedHeadersTag | EFromHeaderNotSigned | EInvalidIdentity | EInvalidBodyLength
| EInvalidQueryMethod | ENoSupportedQueryMethods | EInvalidSelector | EInvalidTimestamp
| EInvalidExpiration | EInvalidCopiedHeaderField | EMissingVersionTag | EMissingAlgorithmTag
| EMissingSignatureTag | EMissingBodyHashTag | EMissingDomainTag | EMissingSignedHeadersTag
| EMissingSelectorTag | EDomainMismatch | EExpirationNotAfterTimestamp.

(** src/signature.rs:667-681 [DkimSignatureError] *)
Record SigError := mkSigError {
  se_kind : SigErrorKind;
  se_algorithm_str : option str;
  se_signature_data_str : option str;
  se_domain_str : option str;
  se_identity_str : option str;
  se_selector_str : option str
}.

(** src/signature.rs:686-695 [DkimSignatureError::new] *)
Definition sig_error_new (k : SigErrorKind) : SigError := mkSigError k None None None None None.

(** src/signature.rs:783-822 [DkimSignature] *)
Record DkimSig := mkSig {
  s_algorithm : SigningAlg;
  s_signature_data : list byte;
  s_body_hash : list byte;
  s_canonicalization : Canonicalization;
  s_domain : DomainName;
  s_signed_headers : list FieldName;
  s_identity : option Identity;
  s_body_length : option N;
  s_selector : Selector;
  s_timestamp : option N;
  s_expiration : option N;
  s_copied_headers : list (FieldName * list byte);
  s_ext_tags : list (str * str)
}.

(** src/signature.rs:858-871: the local variables of [from_tag_list_internal] *)
Record PSig := mkPSig {
  p_version_seen : bool;
  p_algorithm : option SigningAlg;
  p_signature_data : option (list byte);
  p_body_hash : option (list byte);
  p_canonicalization : option Canonicalization;
  p_domain : option DomainName;
  p_signed_headers : option (list FieldName);
  p_identity : option Identity;
  p_body_length : option N;
  p_selector : option Selector;
  p_timestamp : option N;
  p_expiration : option N;
  p_copied_headers : option (list (FieldName * list byte));
  p_ext_tags : list (str * str)
}.

Definition psig_init : PSig :=
  mkPSig false None None None None None None None None None None None None [].

(** src/signature.rs:934-938: all names well-formed, or an error *)
Fixpoint parse_names (ss : list str) : option (list FieldName) :=
  match ss with
  | [] => Some []
  | s :: ss' =>
      match field_name_new s with
      | None => None
      | Some n => option_map (cons n) (parse_names ss')
      end
  end.

(** src/signature.rs:1008-1012 *)
Fixpoint parse_copied (pieces : list str) : outcome (option (list (FieldName * list byte))) :=
  match pieces with
  | [] => Val (Some [])
  | p :: ps =>
      let! r := parse_quoted_printable_header_field p in
      match r with
      | None => Val None
      | Some nv =>
          let! rest := parse_copied ps in
          Val (option_map (cons nv) rest)
      end
  end.

(** src/signature.rs:972-985: the [q=] tag; [None] is success *)
Fixpoint check_query_methods (seen : bool) (ss : list str) : option SigErrorKind :=
  match ss with
  | [] => if seen then None else Some ENoSupportedQueryMethods
  | s :: ss' =>
      if is_nil s then Some EInvalidQueryMethod
      else check_query_methods (seen || eq_ignore_ascii_case s (lit "dns/txt")) ss'
  end.

Section WithIdna.
Variable pre : bool.
Variable idna : Idna.

(** src/signature.rs:874-1019: the body of the loop over the tags *)
Definition sig_tag (p : PSig) (t : TagSpec) : outcome (result PSig SigErrorKind) :=
  let name := tag_name t in
  let value := tag_value t in
  let '(mkPSig vs a b bh c d h i l s ts x z e) := p in
  if leqb name (lit "v") then
    Val (if negb (leqb value (lit "1")) then Err EIncompatibleVersion
         else Ok (mkPSig true a b bh c d h i l s ts x z e))
  else if leqb name (lit "a") then
    Val (match alg_from_str pre value with
         | Some v => Ok (mkPSig vs (Some v) b bh c d h i l s ts x z e)
         | None =>
             Err (if negb pre && eq_ignore_ascii_case value (lit "rsa-sha1")
                  then EHistoricAlgorithm else EUnsupportedAlgorithm)
         end)
  else if leqb name (lit "b") then
    Val (match parse_base64_value value with
         | None => Err EInvalidBase64
         | Some v => if is_nil v then Err EEmptySignatureTag
                     else Ok (mkPSig vs a (Some v) bh c d h i l s ts x z e)
         end)
  else if leqb name (lit "bh") then
    Val (match parse_base64_value value with
         | None => Err EInvalidBase64
         | Some v => if is_nil v then Err EEmptyBodyHashTag
                     else Ok (mkPSig vs a b (Some v) c d h i l s ts x z e)
         end)
  else if leqb name (lit "c") then
    Val (match canonicalization_from_str value with
         | None => Err EUnsupportedCanonicalization
         | Some v => Ok (mkPSig vs a b bh (Some v) d h i l s ts x z e)
         end)
  else if leqb name (lit "d") then
    let! r := domain_new idna value in
    Val (match r with
         | None => Err EInvalidDomain
         | Some v => Ok (mkPSig vs a b bh c (Some v) h i l s ts x z e)
         end)
  else if leqb name (lit "h") then
    Val (if is_nil value then Err EEmptySignedHeadersTag
         else
           match parse_names (parse_colon_separated_value value) with
           | None => Err EInvalidSignedHeaderName
           | Some sh =>
               if negb (existsb (fun n => name_eqb n (lit "From")) sh)
               then Err EFromHeaderNotSigned
               else Ok (mkPSig vs a b bh c d (Some sh) i l s ts x z e)
           end)
  else if leqb name (lit "i") then
    let! r := parse_quoted_printable_value value in
    match r with
    | None => Val (Err EInvalidIdentity)
    | Some v =>
        match from_utf8 v with
        | None => Val (Err EInvalidIdentity)
        | Some v =>
            let! r := identity_new idna v in
            Val (match r with
                 | None => Err EInvalidIdentity
                 | Some v => Ok (mkPSig vs a b bh c d h (Some v) l s ts x z e)
                 end)
        end
    end
  else if leqb name (lit "l") then
    Val (match parse_u64 value with
         | None => Err EInvalidBodyLength
         | Some v => Ok (mkPSig vs a b bh c d h i (Some v) s ts x z e)
         end)
  else if leqb name (lit "q") then
    Val (match check_query_methods false (parse_colon_separated_value value) with
         | Some k => Err k
         | None => Ok p
         end)
  else if leqb name (lit "s") then
    let! r := selector_new idna value in
    Val (match r with
         | None => Err EInvalidSelector
         | Some v => Ok (mkPSig vs a b bh c d h i l (Some v) ts x z e)
         end)
  else if leqb name (lit "t") then
    Val (match parse_u64 value with
         | None => Err EInvalidTimestamp
         | Some v => Ok (mkPSig vs a b bh c d h i l s (Some v) x z e)
         end)
  else if leqb name (lit "x") then
    Val (match parse_u64 value with
         | None => Err EInvalidExpiration
         | Some v => Ok (mkPSig vs a b bh c d h i l s ts (Some v) z e)
         end)
  else if leqb name (lit "z") then
    let! r := parse_copied (split_on 124 value) in
    Val (match r with
         | None => Err EInvalidCopiedHeaderField
         | Some v => Ok (mkPSig vs a b bh c d h i l s ts x (Some v) e)
         end)
  else Val (Ok (mkPSig vs a b bh c d h i l s ts x z (e ++ [(name, value)]))).

(** src/signature.rs:873-1020: the loop *)
Fixpoint sig_tags (p : PSig) (tags : list TagSpec) : outcome (result PSig SigErrorKind) :=
  match tags with
  | [] => Val (Ok p)
  | t :: tags' =>
      let! r := sig_tag p t in
      match r with
      | Err k => Val (Err k)
      | Ok p' => sig_tags p' tags'
      end
  end.

(** src/signature.rs:1022-1063: the final checks *)
Definition sig_finish (p : PSig) : outcome (result DkimSig SigErrorKind) :=
  if negb (p_version_seen p) then Val (Err EMissingVersionTag)
  else
    match p_algorithm p with
    | None => Val (Err EMissingAlgorithmTag)
    | Some algorithm =>
    match p_signature_data p with
    | None => Val (Err EMissingSignatureTag)
    | Some signature_data =>
    match p_body_hash p with
    | None => Val (Err EMissingBodyHashTag)
    | Some body_hash =>
    match p_domain p with
    | None => Val (Err EMissingDomainTag)
    | Some domain =>
    match p_signed_headers p with
    | None => Val (Err EMissingSignedHeadersTag)
    | Some signed_headers =>
    match p_selector p with
    | None => Val (Err EMissingSelectorTag)
    | Some selector =>
        let! ok :=
          match p_identity p with
          | Some id => eq_or_subdomain_of idna (id_domain id) domain
          | None => Val true
          end in
        if negb ok then Val (Err EDomainMismatch)
        else if match p_timestamp p, p_expiration p with
                | Some t, Some x => x <=? t
                | _, _ => false
                end
        then Val (Err EExpirationNotAfterTimestamp)
        else
          Val (Ok (mkSig algorithm signature_data body_hash
                     (unwrap_or (p_canonicalization p) (mkCanon Simple Simple))
                     domain signed_headers (p_identity p) (p_body_length p) selector
                     (p_timestamp p) (p_expiration p)
                     (unwrap_or (p_copied_headers p) []) (p_ext_tags p)))
    end end end end end end.

(** src/signature.rs:857-1064 [from_tag_list_internal] *)
Definition sig_from_tags_internal (tags : list TagSpec) : outcome (result DkimSig SigErrorKind) :=
  let! r := sig_tags psig_init tags in
  match r with
  | Err k => Val (Err k)
  | Ok p => sig_finish p
  end.

(** src/signature.rs:835-844: the last tag with the given name, if any *)
Fixpoint raw_tag (name : str) (acc : option str) (tags : list TagSpec) : option str :=
  match tags with
  | [] => acc
  | t :: ts => raw_tag name (if leqb (tag_name t) name then Some (tag_value t) else acc) ts
  end.

(** src/signature.rs:825-855 [from_tag_list] *)
Definition sig_from_tags (tags : list TagSpec) : outcome (result DkimSig SigError) :=
  let! r := sig_from_tags_internal tags in
  Val (match r with
       | Ok s => Ok s
       | Err k =>
           Err (mkSigError k (raw_tag (lit "a") None tags) (raw_tag (lit "b") None tags)
                  (raw_tag (lit "d") None tags) (raw_tag (lit "i") None tags)
                  (raw_tag (lit "s") None tags))
       end).

(** src/signature.rs:1067-1076 [FromStr for DkimSignature] *)
Definition sig_from_str (s : str) : outcome (result DkimSig SigError) :=
  match tag_list_from_str s with
  | Err _ => Val (Err (sig_error_new ETagListFormat))
  | Ok tags => sig_from_tags tags
  end.

End WithIdna.
