(** Model of builds with debug assertions and overflow checks, which is what
    cargo makes unless told otherwise.  Definitions only.

    Each definition is the one of the same name without [_dev], with two things
    added: [debug_assert!], and the check of subtractions that they do not go
    below zero (of additions and multiplications only the one on [u8] in
    [u8_from_digits] is checked; the others are on [usize] and count what is in
    memory).  Functions without either, and without calls of functions with
    either, are the same in both builds. *)

From Coq Require Import String List.
From Verif Require Import Base Utf8 Canon BodyHash Header Parse QP Base64 TagList Domain Signature
  KeyRecord Crypto Format Sign Verify.

(** [debug_assert!] *)
Definition debug_assert (b : bool) : outcome unit := if b then Val tt else Panic.

(** subtraction of [usize] *)
Definition checked_sub (a b : nat) : outcome nat := if Nat.leb b a then Val (a - b)%nat else Panic.

(** ** src/parse.rs *)

(** src/parse.rs:19-22 [strip_suffix] *)
Definition strip_suffix_dev (s suffix : str) : outcome str :=
  let! _ := debug_assert (is_some (strip_suffix_str suffix s)) in
  let! n := checked_sub (length s) (length suffix) in
  Val (firstn n s).

(** ** src/quoted_printable.rs *)

(** src/quoted_printable.rs:204-232 [u8_from_digits] *)
Definition u8_from_digits_dev (c1 c2 : byte) : outcome byte :=
  let! _ := debug_assert (is_ascii_hexdigit c1 && is_ascii_hexdigit c2) in
  let! a := hex_to_u8 c1 in
  let! b := hex_to_u8 c2 in
  if a * 16 + b <? 256 then Val (a * 16 + b) else Panic.

(** src/quoted_printable.rs:154-168 [strip_hex_octet] *)
Definition strip_hex_octet_dev (s : str) : outcome (option (str * byte)) :=
  match strip_hexdig s with
  | None => Val None
  | Some (s1, digit1) =>
      match strip_hexdig s1 with
      | None => Val None
      | Some (s2, digit2) =>
          let! b := u8_from_digits_dev digit1 digit2 in
          Val (Some (s2, b))
      end
  end.

(** src/quoted_printable.rs:111-151 *)
Fixpoint qp_decode_loop_dev (fuel : nat) (state : QPState) (s : str) (acc : list byte)
    : outcome (option (list byte)) :=
  match fuel with
  | O => Panic
  | S fuel' =>
      match strip_prefix_char 61 s with
      | Some snext =>
          let! r := strip_hex_octet_dev snext in
          match r with
          | None => Val None
          | Some (snext, x) => qp_decode_loop_dev fuel' QChar snext (acc ++ [x])
          end
      | None =>
          match strip_dkim_safe_chars s with
          | Some snext =>
              let! chars := strip_suffix_dev s snext in
              qp_decode_loop_dev fuel' QChar snext (acc ++ as_bytes chars)
          | None =>
              match strip_fws s with
              | Some snext =>
                  match state with
                  | QChar => qp_decode_loop_dev fuel' QFws snext acc
                  | QFws => Val None
                  end
              | None => Val (if is_nil s then Some acc else None)
              end
          end
      end
  end.

(** src/quoted_printable.rs:99-152 [decode] *)
Definition qp_decode_dev (s : str) : outcome (option (list byte)) :=
  qp_decode_loop_dev (S (length s)) QChar s [].

(** src/quoted_printable.rs:175-202 [decode_qp_section] *)
Fixpoint qp_section_loop_dev (chars : str) (acc : list byte) : outcome (option (list byte)) :=
  match chars with
  | [] => Val (Some acc)
  | c :: rest =>
      if c =? 61 then
        match rest with
        | c1 :: rest1 =>
            if is_hexdig c1 then
              match rest1 with
              | c2 :: rest2 =>
                  if is_hexdig c2 then
                    let! b := u8_from_digits_dev c1 c2 in
                    qp_section_loop_dev rest2 (acc ++ [b])
                  else Val None
              | [] => Val None
              end
            else Val None
        | [] => Val None
        end
      else if is_dkim_safe_char c || is_wsp c then qp_section_loop_dev rest (acc ++ utf8_char c)
      else Val None
  end.
Definition decode_qp_section_dev (s : str) : outcome (option (list byte)) := qp_section_loop_dev s [].

(** ** src/tag_list.rs *)

(** src/tag_list.rs:123-128 [strip_tag_name] *)
Definition strip_tag_name_dev (value : str) : outcome (option (str * str)) :=
  match strip_prefix_if is_alpha value with
  | None => Val None
  | Some s =>
      let s := trim_start is_alphanum s in
      let! name := strip_suffix_dev value s in
      Val (Some (s, name))
  end.

(** src/tag_list.rs:111-121 [strip_tag_name_and_equals] *)
Definition strip_tag_name_and_equals_dev (val : str) : outcome (option (str * str)) :=
  let s := skip_fws val in
  let! r := strip_tag_name_dev s in
  Val (match r with
       | None => None
       | Some (s, name) =>
           let s := skip_fws s in
           match strip_prefix_char 61 s with
           | None => None
           | Some s => Some (s, name)
           end
       end).

(** src/tag_list.rs:131-144 [strip_tag_value] *)
Definition strip_tag_value_dev (value : str) : outcome (option (str * str)) :=
  match strip_tval value with
  | None => Val None
  | Some s =>
      let s := strip_tvals (length s) s in
      let! v := strip_suffix_dev value s in
      Val (Some (s, v))
  end.

(** src/tag_list.rs:94-108 [strip_tag_spec] *)
Definition strip_tag_spec_dev (val : str) : outcome (option (str * TagSpec)) :=
  let! r := strip_tag_name_and_equals_dev val in
  match r with
  | None => Val None
  | Some (s, name) =>
      let s := skip_fws s in
      let! r := strip_tag_value_dev s in
      Val (match r with
           | Some (s, value) => Some (skip_fws s, mkTag name value)
           | None => Some (s, mkTag name [])
           end)
  end.

(** src/tag_list.rs:84-87 *)
Fixpoint strip_more_tags_dev (fuel : nat) (s : str) : outcome (str * list TagSpec) :=
  match fuel with
  | O => Val (s, [])
  | S fuel' =>
      match strip_prefix_char 59 s with
      | None => Val (s, [])
      | Some s1 =>
          let! r := strip_tag_spec_dev s1 in
          match r with
          | None => Val (s, [])
          | Some (snext, t) =>
              let! (s', ts) := strip_more_tags_dev fuel' snext in Val (s', t :: ts)
          end
      end
  end.

(** src/tag_list.rs:79-92 [strip_tag_list] *)
Definition strip_tag_list_dev (val : str) : outcome (option (str * list TagSpec)) :=
  let! r := strip_tag_spec_dev val in
  match r with
  | None => Val None
  | Some (s, t) =>
      let! (s, ts) := strip_more_tags_dev (length s) s in
      let s := unwrap_or (strip_prefix_char 59 s) s in
      Val (Some (s, t :: ts))
  end.

(** src/tag_list.rs:65-76 [TagList::from_str] *)
Definition tag_list_from_str_dev (s : str) : outcome (result (list TagSpec) ParseTagListError) :=
  let! r := strip_tag_list_dev s in
  Val (match r with
       | Some (rest, tag_list) =>
           if is_nil rest then
             if has_dup [] tag_list then Err DuplicateTag else Ok tag_list
           else Err TagListSyntax
       | None => Err TagListSyntax
       end).

(** src/tag_list.rs:214-216 [is_tag_name] *)
Definition is_tag_name_dev (s : str) : outcome bool :=
  let! r := strip_tag_name_dev s in
  Val (match r with
       | Some (rest, _) => is_nil rest
       | None => false
       end).

(** src/tag_list.rs:218-220 [is_tag_value] *)
Definition is_tag_value_dev (s : str) : outcome bool :=
  if is_nil s then Val true
  else
    let! r := strip_tag_value_dev s in
    Val (match r with
         | Some (rest, _) => is_nil rest
         | None => false
         end).

(** [debug_assert!(is_tag_value(value))] *)
Definition assert_tag_value (value : str) : outcome unit :=
  let! b := is_tag_value_dev value in debug_assert b.

(** src/tag_list.rs:159-163 [parse_colon_separated_value] *)
Definition parse_colon_separated_value_dev (value : str) : outcome (list str) :=
  let! _ := assert_tag_value value in
  Val (map trim_surrounding_fws (split_on 58 value)).

(** src/tag_list.rs:165-175 [parse_base64_value] *)
Definition parse_base64_value_dev (value : str) : outcome (option (list byte)) :=
  let! _ := assert_tag_value value in
  Val (decode_base64 (filter (fun c => negb (is_fws_char c)) value)).

(** src/tag_list.rs:177-181 [parse_qp_section_value] *)
Definition parse_qp_section_value_dev (value : str) : outcome (option (list byte)) :=
  let! _ := assert_tag_value value in
  decode_qp_section_dev value.

(** src/tag_list.rs:183-187 [parse_quoted_printable_value] *)
Definition parse_quoted_printable_value_dev (value : str) : outcome (option (list byte)) :=
  let! _ := assert_tag_value value in
  qp_decode_dev value.

(** src/tag_list.rs:189-212 [parse_quoted_printable_header_field] *)
Definition parse_quoted_printable_header_field_dev (value : str)
    : outcome (option (FieldName * list byte)) :=
  let! _ := assert_tag_value (trim_surrounding_fws value) in
  let! r := qp_decode_dev value in
  Val (match r with
       | None => None
       | Some val =>
           match split_once 58 val with
           | None => None
           | Some (name, value) =>
               match from_utf8 name with
               | None => None
               | Some name =>
                   match field_name_new name with
                   | None => None
                   | Some name => Some (name, value)
                   end
               end
           end
       end).

(** ** src/signature.rs *)

(** src/signature.rs:265-272 [is_label] *)
Definition is_label_dev (s : str) : outcome bool :=
  let! _ := debug_assert (negb (contains_char 46 s)) in
  Val (has_valid_label_len s
       && negb (starts_with 45 s)
       && negb (ends_with 45 s)
       && forallb (fun c => is_ascii_alphanumeric c || (c =? 45) || (c =? 95)) s).

(** [labels.all(is_label)] *)
Fixpoint all_labels_dev (labels : list str) : outcome bool :=
  match labels with
  | [] => Val true
  | l :: ls =>
      let! b := is_label_dev l in
      if b then all_labels_dev ls else Val false
  end.

(** src/signature.rs:245-261 [is_valid_dns_name] *)
Definition is_valid_dns_name_dev (s : str) (check_tld : bool) : outcome bool :=
  if negb (has_valid_domain_len s) then Val false
  else
    match rev (split_on 46 s) with
    | [] => Panic
    | final_label :: labels =>
        let! b := is_label_dev final_label in
        if negb b || (check_tld && forallb is_ascii_digit final_label)
        then Val false
        else all_labels_dev labels
    end.

(** src/signature.rs:934-938: the parsing of a h= value *)
Definition parse_names_value_dev (value : str) : outcome (option (list FieldName)) :=
  let! names := parse_colon_separated_value_dev value in Val (parse_names names).

(** src/signature.rs:1008-1012 *)
Fixpoint parse_copied_dev (pieces : list str) : outcome (option (list (FieldName * list byte))) :=
  match pieces with
  | [] => Val (Some [])
  | p :: ps =>
      let! r := parse_quoted_printable_header_field_dev p in
      match r with
      | None => Val None
      | Some nv =>
          let! rest := parse_copied_dev ps in
          Val (option_map (cons nv) rest)
      end
  end.

Section WithIdna.
Variable pre : bool.
Variable idna : Idna.

(** src/signature.rs:234-243 [is_valid_domain_string] *)
Definition is_valid_domain_string_dev (s : str) (check_tld : bool) : outcome bool :=
  match idna_to_ascii idna s with
  | Some ascii_s =>
      let! ok := is_valid_dns_name_dev ascii_s check_tld in
      Val (ok && snd (idna_to_unicode idna s))
  | None => Val false
  end.

(** src/signature.rs:67-74, 140-151 [DomainName::new] *)
Definition domain_new_dev (s : str) : outcome (option DomainName) :=
  let! ok := is_valid_domain_string_dev s true in Val (if ok then Some s else None).

(** src/signature.rs:166-173, 221-232 [Selector::new] *)
Definition selector_new_dev (s : str) : outcome (option Selector) :=
  let! ok := is_valid_domain_string_dev s false in Val (if ok then Some s else None).

(** src/signature.rs:78-92 [eq_or_subdomain_of] *)
Definition eq_or_subdomain_of_dev (self other : DomainName) : outcome bool :=
  if domain_eqb self other then Val true
  else
    let! name := domain_to_ascii idna self in
    let! other := domain_to_ascii idna other in
    if Nat.leb (str_len other) (str_len name) then
      let! n := checked_sub (str_len name) (str_len other) in
      match split_at_byte n name with
      | None => Panic
      | Some (l, r) =>
          Val (eq_ignore_ascii_case r other && (is_nil l || ends_with 46 l))
      end
    else Val false.

(** src/signature.rs:314-332 [Identity::new] *)
Definition identity_new_dev (s : str) : outcome (option Identity) :=
  match rsplit_once 64 s with
  | None => Val None
  | Some (local_part, domain) =>
      if negb (is_nil local_part) && negb (is_local_part local_part) then Val None
      else
        let! d := domain_new_dev domain in
        Val (match d with
             | None => None
             | Some d => Some (mkIdentity (if is_nil local_part then None else Some local_part) d)
             end)
  end.

(** src/signature.rs:874-1019: the body of the loop over the tags *)
Definition sig_tag_dev (p : PSig) (t : TagSpec) : outcome (result PSig SigErrorKind) :=
  let name := tag_name t in
  let value := tag_value t in
  let '(mkPSig vs a b bh c d h i l s ts x z e) := p in
  if leqb name (lit "v") then
    Val (if negb (leqb value (lit "1")) then Err EIncompatibleVersion
         else Ok (mkPSig true a b bh c d h i l s ts x z e))
  else if leqb name (lit "a") then
    Val (match alg_from_str pre value with
         | Some v => Ok (mkPSig vs (Some v) b bh c d h i l s ts x z e)
         | None =>
             Err (if negb pre && eq_ignore_ascii_case value (lit "rsa-sha1")
                  then EHistoricAlgorithm else EUnsupportedAlgorithm)
         end)
  else if leqb name (lit "b") then
    let! r := parse_base64_value_dev value in
    Val (match r with
         | None => Err EInvalidBase64
         | Some v => if is_nil v then Err EEmptySignatureTag
                     else Ok (mkPSig vs a (Some v) bh c d h i l s ts x z e)
         end)
  else if leqb name (lit "bh") then
    let! r := parse_base64_value_dev value in
    Val (match r with
         | None => Err EInvalidBase64
         | Some v => if is_nil v then Err EEmptyBodyHashTag
                     else Ok (mkPSig vs a b (Some v) c d h i l s ts x z e)
         end)
  else if leqb name (lit "c") then
    Val (match canonicalization_from_str value with
         | None => Err EUnsupportedCanonicalization
         | Some v => Ok (mkPSig vs a b bh (Some v) d h i l s ts x z e)
         end)
  else if leqb name (lit "d") then
    let! r := domain_new_dev value in
    Val (match r with
         | None => Err EInvalidDomain
         | Some v => Ok (mkPSig vs a b bh c (Some v) h i l s ts x z e)
         end)
  else if leqb name (lit "h") then
    if is_nil value then Val (Err EEmptySignedHeadersTag)
    else
      let! r := parse_names_value_dev value in
      Val (match r with
           | None => Err EInvalidSignedHeaderName
           | Some sh =>
               if negb (existsb (fun n => name_eqb n (lit "From")) sh)
               then Err EFromHeaderNotSigned
               else Ok (mkPSig vs a b bh c d (Some sh) i l s ts x z e)
           end)
  else if leqb name (lit "i") then
    let! r := parse_quoted_printable_value_dev value in
    match r with
    | None => Val (Err EInvalidIdentity)
    | Some v =>
        match from_utf8 v with
        | None => Val (Err EInvalidIdentity)
        | Some v =>
            let! r := identity_new_dev v in
            Val (match r with
                 | None => Err EInvalidIdentity
                 | Some v => Ok (mkPSig vs a b bh c d h (Some v) l s ts x z e)
                 end)
        end
    end
  else if leqb name (lit "l") then
    Val (match parse_u64 value with
         | None => Err EInvalidBodyLength
         | Some v => Ok (mkPSig vs a b bh c d h i (Some v) s ts x z e)
         end)
  else if leqb name (lit "q") then
    let! methods := parse_colon_separated_value_dev value in
    Val (match check_query_methods false methods with
         | Some k => Err k
         | None => Ok p
         end)
  else if leqb name (lit "s") then
    let! r := selector_new_dev value in
    Val (match r with
         | None => Err EInvalidSelector
         | Some v => Ok (mkPSig vs a b bh c d h i l (Some v) ts x z e)
         end)
  else if leqb name (lit "t") then
    Val (match parse_u64 value with
         | None => Err EInvalidTimestamp
         | Some v => Ok (mkPSig vs a b bh c d h i l s (Some v) x z e)
         end)
  else if leqb name (lit "x") then
    Val (match parse_u64 value with
         | None => Err EInvalidExpiration
         | Some v => Ok (mkPSig vs a b bh c d h i l s ts (Some v) z e)
         end)
  else if leqb name (lit "z") then
    let! r := parse_copied_dev (split_on 124 value) in
    Val (match r with
         | None => Err EInvalidCopiedHeaderField
         | Some v => Ok (mkPSig vs a b bh c d h i l s ts x (Some v) e)
         end)
  else Val (Ok (mkPSig vs a b bh c d h i l s ts x z (e ++ [(name, value)]))).

(** src/signature.rs:873-1020: the loop *)
Fixpoint sig_tags_dev (p : PSig) (tags : list TagSpec) : outcome (result PSig SigErrorKind) :=
  match tags with
  | [] => Val (Ok p)
  | t :: tags' =>
      let! r := sig_tag_dev p t in
      match r with
      | Err k => Val (Err k)
      | Ok p' => sig_tags_dev p' tags'
      end
  end.

(** src/signature.rs:1022-1063: the final checks *)
Definition sig_finish_dev (p : PSig) : outcome (result DkimSig SigErrorKind) :=
  if negb (p_version_seen p) then Val (Err EMissingVersionTag)
  else
    match p_algorithm p with
    | None => Val (Err EMissingAlgorithmTag)
    | Some algorithm =>
    match p_signature_data p with
    | None => Val (Err EMissingSignatureTag)
    | Some signature_data =>
    match p_body_hash p with
    | None => Val (Err EMissingBodyHashTag)
    | Some body_hash =>
    match p_domain p with
    | None => Val (Err EMissingDomainTag)
    | Some domain =>
    match p_signed_headers p with
    | None => Val (Err EMissingSignedHeadersTag)
    | Some signed_headers =>
    match p_selector p with
    | None => Val (Err EMissingSelectorTag)
    | Some selector =>
        let! ok :=
          match p_identity p with
          | Some id => eq_or_subdomain_of_dev (id_domain id) domain
          | None => Val true
          end in
        if negb ok then Val (Err EDomainMismatch)
        else if match p_timestamp p, p_expiration p with
                | Some t, Some x => x <=? t
                | _, _ => false
                end
        then Val (Err EExpirationNotAfterTimestamp)
        else
          Val (Ok (mkSig algorithm signature_data body_hash
                     (unwrap_or (p_canonicalization p) (mkCanon Simple Simple))
                     domain signed_headers (p_identity p) (p_body_length p) selector
                     (p_timestamp p) (p_expiration p)
                     (unwrap_or (p_copied_headers p) []) (p_ext_tags p)))
    end end end end end end.

(** src/signature.rs:825-1064 [from_tag_list], [from_tag_list_internal] *)
Definition sig_from_tags_dev (tags : list TagSpec) : outcome (result DkimSig SigError) :=
  let! r :=
    (let! r := sig_tags_dev psig_init tags in
     match r with
     | Err k => Val (Err k)
     | Ok p => sig_finish_dev p
     end) in
  Val (match r with
       | Ok s => Ok s
       | Err k =>
           Err (mkSigError k (raw_tag (lit "a") None tags) (raw_tag (lit "b") None tags)
                  (raw_tag (lit "d") None tags) (raw_tag (lit "i") None tags)
                  (raw_tag (lit "s") None tags))
       end).

(** src/signature.rs:1067-1076 [FromStr for DkimSignature] *)
Definition sig_from_str_dev (s : str) : outcome (result DkimSig SigError) :=
  let! r := tag_list_from_str_dev s in
  match r with
  | Err _ => Val (Err (sig_error_new ETagListFormat))
  | Ok tags => sig_from_tags_dev tags
  end.

(** ** src/record.rs *)

(** src/record.rs:170-270: the body of the loop over the tags *)
Definition rec_tag_dev (i : nat) (p : PRec) (t : TagSpec) : outcome (result PRec KeyRecordError) :=
  let name := tag_name t in
  let value := tag_value t in
  let '(mkPRec h k n kd st fl e) := p in
  if leqb name (lit "v") then
    Val (if negb (Nat.eqb i 0) then Err MisplacedVersionTag
         else if negb (leqb value (lit "DKIM1")) then Err KIncompatibleVersion
         else Ok p)
  else if leqb name (lit "h") then
    let! names := parse_colon_separated_value_dev value in
    Val (match parse_hash_algs pre names with
         | Err er => Err er
         | Ok algs => if is_nil algs then Err NoSupportedHashAlgorithms
                      else Ok (mkPRec (Some algs) k n kd st fl e)
         end)
  else if leqb name (lit "k") then
    Val (if eq_ignore_ascii_case value (lit "rsa") then Ok (mkPRec h (Some Rsa) n kd st fl e)
         else if eq_ignore_ascii_case value (lit "ed25519") then
           Ok (mkPRec h (Some Ed25519) n kd st fl e)
         else Err UnsupportedKeyType)
  else if leqb name (lit "n") then
    let! r := parse_qp_section_value_dev value in
    Val (match r with
         | None => Err InvalidQuotedPrintable
         | Some s => Ok (mkPRec h k (Some (from_utf8_lossy s)) kd st fl e)
         end)
  else if leqb name (lit "p") then
    let! r := parse_base64_value_dev value in
    Val (match r with
         | None => Err KInvalidBase64
         | Some s => Ok (mkPRec h k n (Some s) st fl e)
         end)
  else if leqb name (lit "s") then
    let! names := parse_colon_separated_value_dev value in
    Val (match parse_service_types names with
         | Err er => Err er
         | Ok sts => if is_nil sts then Err NoSupportedServiceTypes
                     else Ok (mkPRec h k n kd (Some sts) fl e)
         end)
  else if leqb name (lit "t") then
    let! names := parse_colon_separated_value_dev value in
    Val (match parse_flags names with
         | Err er => Err er
         | Ok fs => Ok (mkPRec h k n kd st (Some fs) e)
         end)
  else Val (Ok (mkPRec h k n kd st fl (e ++ [(name, value)]))).

(** src/record.rs:169-271: the loop *)
Fixpoint rec_tags_dev (i : nat) (p : PRec) (tags : list TagSpec)
    : outcome (result PRec KeyRecordError) :=
  match tags with
  | [] => Val (Ok p)
  | t :: tags' =>
      let! r := rec_tag_dev i p t in
      match r with
      | Err e => Val (Err e)
      | Ok p' => rec_tags_dev (S i) p' tags'
      end
  end.

(** src/record.rs:160-290 [from_tag_list] *)
Definition record_from_tags_dev (tags : list TagSpec) : outcome (result KeyRecord KeyRecordError) :=
  let! r := rec_tags_dev 0 prec_init tags in
  Val (match r with
       | Err e => Err e
       | Ok p =>
           match pr_key_data p with
           | None => Err MissingKeyTag
           | Some key_data =>
               Ok (mkKeyRecord (unwrap_or (pr_hash_algorithms p) (all_hash_algs pre))
                     (unwrap_or (pr_key_type p) Rsa) (pr_notes p) key_data
                     (unwrap_or (pr_service_types p) [SvcAny])
                     (unwrap_or (pr_flags p) []) (pr_ext_tags p))
           end
       end).

(** src/record.rs:301-306 [FromStr for DkimKeyRecord] *)
Definition record_from_str_dev (s : str) : outcome (result KeyRecord KeyRecordError) :=
  let! r := tag_list_from_str_dev s in
  match r with
  | Err _ => Val (Err KTagListFormat)
  | Ok tags => record_from_tags_dev tags
  end.

End WithIdna.

(** ** src/canonicalize.rs, src/message_hash.rs *)

(** src/canonicalize.rs:89-122 [canonicalize_header_relaxed] *)
Definition canonicalize_header_relaxed_dev (value : list byte) : outcome (list byte) :=
  let! _ := debug_assert (is_some (field_body_new value)) in
  Val (compress_space false (trim_space value)).

(** src/canonicalize.rs:66-87 [canonicalize_header] *)
Definition canonicalize_header_dev (alg : CanonAlg) (name : str) (value : list byte)
    : outcome (list byte) :=
  match alg with
  | Simple => Val (as_bytes name ++ [58] ++ value)
  | Relaxed =>
      let! cvalue := canonicalize_header_relaxed_dev value in
      Val (as_bytes (to_ascii_lowercase name) ++ [58] ++ cvalue)
  end.

(** src/canonicalize.rs:38-57: the loop over the selected names *)
Fixpoint canon_headers_loop_dev (alg : CanonAlg) (rev_headers : list HeaderField)
    (processed : list nat) (selected : list FieldName) : outcome (list byte) :=
  match selected with
  | [] => Val []
  | name :: selected' =>
      match find_unprocessed 0 rev_headers processed name with
      | Some (i, (name, val)) =>
          let! cheader := canonicalize_header_dev alg name val in
          let! rest := canon_headers_loop_dev alg rev_headers (i :: processed) selected' in
          Val (cheader ++ CRLF ++ rest)
      | None => canon_headers_loop_dev alg rev_headers processed selected'
      end
  end.

(** src/canonicalize.rs:31-60 [canonicalize_headers] *)
Definition canonicalize_headers_dev (alg : CanonAlg) (headers : list HeaderField)
    (selected : list FieldName) : outcome (list byte) :=
  canon_headers_loop_dev alg (rev headers) [] selected.

(** src/message_hash.rs:32-53 [compute_data_hash] *)
Definition compute_data_hash_dev (hash : HashAlg -> list byte -> list byte) (hash_alg : HashAlg)
    (canon_alg : CanonAlg) (headers : list HeaderField) (selected : list FieldName)
    (dkim_sig_header_name formatted_value : str) : outcome (list byte) :=
  let! cheaders := canonicalize_headers_dev canon_alg headers selected in
  let! cheader :=
    canonicalize_header_dev canon_alg dkim_sig_header_name (as_bytes formatted_value) in
  Val (hash hash_alg (cheaders ++ cheader)).

(** ** src/signer/format.rs *)

Notation Cur := (list N * nat)%type (only parsing).

(** src/signer/format.rs:302-316 [format_tag] *)
Definition format_tag_dev (cur : Cur) (fmt : Fmt) (name value : str) : outcome Cur :=
  let! _ := debug_assert (forallb is_ascii name) in
  let taglen := (str_len name + length value + if f_last fmt then 1 else 2)%nat in
  let '(out, i) := advance_i_initial cur taglen fmt in
  Val (out ++ name ++ [61] ++ value ++ (if f_last fmt then [] else [59]), i).

(** src/signer/format.rs:277-288 [format_tag_c] *)
Definition format_tag_c_dev (cur : Cur) (fmt : Fmt) (c : Canonicalization) : outcome Cur :=
  match c_header c, c_body c with
  | Simple, Simple => Val cur
  | Simple, Relaxed => format_tag_dev cur fmt (lit "c") (lit "simple/relaxed")
  | Relaxed, Simple => format_tag_dev cur fmt (lit "c") (lit "relaxed")
  | Relaxed, Relaxed => format_tag_dev cur fmt (lit "c") (lit "relaxed/relaxed")
  end.

(** src/signer/format.rs:318-348 [format_tag_h] *)
Definition format_tag_h_dev (cur : Cur) (fmt : Fmt) (value : list FieldName) : outcome Cur :=
  let! _ := debug_assert (negb (is_nil value)) in
  format_tag_h cur fmt value.

(** src/signer/format.rs:350-370 [format_tag_bh] *)
Definition format_tag_bh_dev (cur : Cur) (fmt : Fmt) (value : list byte) : outcome Cur :=
  let s := encode_base64 value in
  let '(out, i) := advance_i_initial cur 4 fmt in
  let! i := checked_sub i 1 in
  let '(out, i) := format_chunks_into_string (out ++ lit "bh=", i) fmt s in
  Val (if f_last fmt then (out, i) else (out ++ [59], (i + 1)%nat)).

(** src/signer/format.rs:372-406 [format_tag_name_b] *)
Definition format_tag_name_b_dev (cur : Cur) (fmt : Fmt) (b_tag_len : nat) : outcome (Cur * nat) :=
  let '(out, i) := advance_i_initial cur 3 fmt in
  let! i := checked_sub i 1 in
  let out := out ++ lit "b=" in
  let insertion_i := str_len out in
  let indent_len := str_len (f_indent fmt) in
  let chunk_len := Nat.max (f_width fmt - indent_len) 1 in
  let remaining_len := (f_width fmt - i)%nat in
  let! i :=
    if Nat.leb b_tag_len remaining_len then Val (i + b_tag_len)%nat
    else
      let! d := checked_sub b_tag_len remaining_len in
      let final_chunk_len := Nat.modulo d chunk_len in
      let final_chunk_len := if Nat.eqb final_chunk_len 0 then chunk_len else final_chunk_len in
      Val (final_chunk_len + indent_len)%nat in
  Val ((if f_last fmt then (out, i) else (out ++ [59], (i + 1)%nat)), insertion_i).

(** src/signer/format.rs:408-462 [format_tag_z] *)
Definition format_tag_z_dev (cur : Cur) (fmt : Fmt) (value : list (FieldName * list byte))
    : outcome Cur :=
  let! _ := debug_assert (negb (is_nil value)) in
  format_tag_z cur fmt value.

Section Formatting.
Variable idna : Idna.

(** src/signer/format.rs:212-234 [format_tag_d], [format_tag_s] *)
Definition format_tag_domain_dev (name : str) (cur : Cur) (fmt : Fmt) (d : DomainName) : outcome Cur :=
  let! s := domain_form idna (f_ascii fmt) d in
  format_tag_dev cur fmt name s.

(** src/signer/format.rs:236-261 [format_tag_i] *)
Definition format_tag_i_dev (cur : Cur) (fmt : Fmt) (identity : Identity) : outcome Cur :=
  let! d := domain_form idna (f_ascii fmt) (id_domain identity) in
  let s :=
    match id_local_part identity with
    | Some l =>
        (if f_ascii fmt then qp_encode_ascii_only (as_bytes l) None
         else qp_encode (as_bytes l) None) ++ [64] ++ d
    | None => [64] ++ d
    end in
  format_tag_dev cur fmt (lit "i") s.

(** src/signer/format.rs:169-195: one tag *)
Definition format_one_dev (u : USig) (b_tag_len : nat) (fmt : Fmt) (cur : Cur) (ins : option nat)
    (tag_name : str) : outcome (Cur * option nat) :=
  let keep (m : outcome Cur) : outcome (Cur * option nat) := let! c := m in Val (c, ins) in
  if leqb tag_name (lit "a") then keep (format_tag_dev cur fmt (lit "a") (alg_str (u_algorithm u)))
  else if leqb tag_name (lit "b") then
    let! (c, n) := format_tag_name_b_dev cur fmt b_tag_len in Val (c, Some n)
  else if leqb tag_name (lit "bh") then keep (format_tag_bh_dev cur fmt (u_body_hash u))
  else if leqb tag_name (lit "c") then keep (format_tag_c_dev cur fmt (u_canonicalization u))
  else if leqb tag_name (lit "d") then keep (format_tag_domain_dev (lit "d") cur fmt (u_domain u))
  else if leqb tag_name (lit "h") then keep (format_tag_h_dev cur fmt (u_signed_headers u))
  else if leqb tag_name (lit "i") then
    match u_identity u with Some i => keep (format_tag_i_dev cur fmt i) | None => Panic end
  else if leqb tag_name (lit "l") then
    match u_body_length u with
    | Some n => keep (format_tag_dev cur fmt (lit "l") (dec_str n))
    | None => Panic
    end
  else if leqb tag_name (lit "s") then keep (format_tag_domain_dev (lit "s") cur fmt (u_selector u))
  else if leqb tag_name (lit "t") then
    match u_timestamp u with
    | Some n => keep (format_tag_dev cur fmt (lit "t") (dec_str n))
    | None => Panic
    end
  else if leqb tag_name (lit "v") then keep (format_tag_dev cur fmt (lit "v") (lit "1"))
  else if leqb tag_name (lit "x") then
    match u_expiration u with
    | Some n => keep (format_tag_dev cur fmt (lit "x") (dec_str n))
    | None => Panic
    end
  else if leqb tag_name (lit "z") then keep (format_tag_z_dev cur fmt (u_copied_headers u))
  else
    match find (fun tv => leqb (fst tv) tag_name) (u_ext_tags u) with
    | Some (t, v) => keep (format_tag_dev cur fmt t v)
    | None => Panic
    end.

(** src/signer/format.rs:164-196: the loop *)
Fixpoint format_tags_dev (u : USig) (b_tag_len width : nat) (indent : str) (ascii : bool)
    (cur : Cur) (ins : option nat) (names : list str) : outcome (Cur * option nat) :=
  match names with
  | [] => Val (cur, ins)
  | n :: ns =>
      let! (cur, ins) :=
        format_one_dev u b_tag_len (mkFmt width indent (is_nil ns) ascii) cur ins n in
      format_tags_dev u b_tag_len width indent ascii cur ins ns
  end.

(** src/signer/format.rs:139-199 [format_without_signature] *)
Definition format_without_signature_dev (u : USig) (format : OutputFormat) (b_tag_len : nat)
    : outcome (str * nat) :=
  let tag_names := compute_tag_names u (of_tag_order format) in
  if is_nil tag_names then Panic
  else
    let! ((out, _), ins) :=
      format_tags_dev u b_tag_len (of_line_width format) (of_indentation format)
        (of_ascii_only format) ([], str_len (of_header_name format) + 1)%nat None tag_names in
    match ins with
    | Some n => Val (out, n)
    | None => Panic
    end.

End Formatting.

(** src/signer/format.rs:532-561 [insert_signature_data] *)
Definition insert_signature_data_dev (formatted_header : str) (insertion_index : nat)
    (header_name : str) (signature_data : list byte) (line_width : nat) (indent : str)
    : outcome str :=
  let! _ := debug_assert (Nat.leb insertion_index (str_len formatted_header)) in
  insert_signature_data formatted_header insertion_index header_name signature_data line_width
    indent.

(** ** src/signer/ *)

(** src/signer/mod.rs:354-362: checks of the extension tags *)
Fixpoint ext_tags_bad_dev (seen : list str) (tags : list (str * str)) : outcome bool :=
  match tags with
  | [] => Val false
  | (name, value) :: rest =>
      if mem_str name seen then Val true
      else
        let! n := is_tag_name_dev name in
        if negb n then Val true
        else
          let! v := is_tag_value_dev value in
          if negb v || is_output_tag name then Val true
          else ext_tags_bad_dev (name :: seen) rest
  end.

Section Signing.
Variable E : Env.
Notation C := (env_crypto E).
Notation idna := (env_idna E).

(** src/signer/mod.rs:328-374 [validate_request] *)
Definition validate_request_dev (r : SignRequest E) : outcome (option RequestError) :=
  if negb (key_type_eqb (sk_key_type C (r_signing_key E r)) (alg_key_type (r_algorithm E r)))
  then Val (Some IncompatibleKeyType)
  else if match r_header_selection E r with
          | Manual hs => negb (existsb (fun n => name_eqb n (lit "From")) hs)
          | Auto => false
          end
  then Val (Some FromHeaderNotSigned)
  else if match r_header_selection E r with
          | Manual hs => existsb (contains_char 59) hs
          | Auto => false
          end
  then Val (Some InvalidSignedFieldName)
  else
    let! ok :=
      match r_identity E r with
      | Some identity => eq_or_subdomain_of_dev idna (id_domain identity) (r_domain E r)
      | None => Val true
      end in
    if negb ok then Val (Some ReqDomainMismatch)
    else if match r_valid_duration E r with Some d => d =? 0 | None => false end
    then Val (Some ZeroExpirationDuration)
    else
      let! bad := ext_tags_bad_dev [] (r_ext_tags E r) in
      if bad then Val (Some InvalidExtTags)
      else if negb (eq_ignore_ascii_case (of_header_name (r_format E r)) DKIM_SIGNATURE_NAME)
      then Val (Some InvalidDkimSignatureHeaderName)
      else
        let indent := of_indentation (r_format E r) in
        if is_nil indent || existsb (fun c => negb (is_wsp c)) indent
        then Val (Some InvalidIndentationWhitespace)
        else Val None.

(** src/signer/mod.rs:550-566: the loop over the requests *)
Fixpoint prepare_loop_dev (i : nat) (b : BodyHasherBuilder) (requests : list (SignRequest E))
    : outcome (result BodyHasherBuilder RequestError) :=
  match requests with
  | [] => Val (Ok b)
  | r :: rs =>
      if Nat.leb 10 i then Val (Err TooManyRequests)
      else
        let! v := validate_request_dev r in
        match v with
        | Some e => Val (Err e)
        | None =>
            match bl_to_usize (env_usize_max E) (r_body_length E r) with
            | None => Val (Err ReqOverflow)
            | Some body_len => prepare_loop_dev (S i) (bhb_register b (request_key E body_len r)) rs
            end
        end
  end.

(** src/signer/mod.rs:539-579 [prepare_signing] *)
Definition prepare_signing_dev (order : list BodyHasherKey -> list BodyHasherKey)
    (headers : list HeaderField) (requests : list (SignRequest E))
    : outcome (result (Signer E) RequestError) :=
  if negb (existsb (fun f => name_eqb (fst f) (lit "From")) headers)
  then Val (Err MissingFromHeader)
  else
    let! r := prepare_loop_dev 0 (bhb_new false) requests in
    match r with
    | Err e => Val (Err e)
    | Ok b =>
        if is_nil requests then Val (Err EmptyRequests)
        else Val (Ok (mkSigner E requests headers (bhb_build b (order (bhb_registrations b)))))
    end.

(** src/signer/sign.rs:145-193 [produce_signature] *)
Definition produce_signature_dev (u : USig) (key : SigningKey C) (format : OutputFormat)
    (headers : list HeaderField) : outcome (result SigningOutput SigningError) :=
  let b_len := estimate_b_tag_length E key in
  let! (value, insertion_index) := format_without_signature_dev idna u format b_len in
  let header_name := of_header_name format in
  let hash_alg := alg_hash (u_algorithm u) in
  let! data_hash := compute_data_hash_dev (hash_fn C) hash_alg (c_header (u_canonicalization u))
                      headers (u_signed_headers u) header_name value in
  if negb (key_type_eqb (sk_key_type C key) (alg_key_type (u_algorithm u))) then Panic
  else
    match sign_hash E key hash_alg data_hash with
    | None => Val (Err SigningFailure)
    | Some signature_data =>
        let! value := insert_signature_data_dev value insertion_index header_name signature_data
                        (of_line_width format) (of_indentation format) in
        Val (Ok (mkOutput header_name value (into_signature u signature_data)))
    end.

(** src/signer/sign.rs:31-138 [perform_signing] *)
Definition perform_signing_dev (now : N) (request : SignRequest E) (headers : list HeaderField)
    (body_hash_results : BodyHashResults) : outcome (result SigningOutput SigningError) :=
  match bl_to_usize (env_usize_max E) (r_body_length E request) with
  | None => Panic
  | Some body_length =>
  match results_get body_hash_results (request_key E body_length request) with
  | None => Panic
  | Some (Err InputTruncated) => Panic
  | Some (Err InsufficientInput) => Val (Err InsufficientContent)
  | Some (Ok (body_hash, final_len)) =>
      match
        match r_body_length E request with
        | NoLimit => Some None
        | MessageContent | ExactLen _ => if final_len <=? u64_max then Some (Some final_len) else None
        end
      with
      | None => Val (Err SigOverflow)
      | Some body_length =>
          let signed_headers :=
            match r_header_selection E request with
            | Auto => select_signed_headers headers
            | Manual h => h
            end in
          if negb (existsb (fun n => name_eqb n (lit "From")) signed_headers) then Panic
          else if existsb (contains_char 59) signed_headers then Panic
          else
            let timestamp :=
              match r_timestamp E request with
              | TsNone => None
              | TsNow => Some now
              | TsExact t => Some t
              end in
            let expiration :=
              option_map (fun d => saturating_add (unwrap_or timestamp now) d)
                (r_valid_duration E request) in
            let copied_headers :=
              if r_copy_headers E request then prepare_copied_headers headers signed_headers else [] in
            produce_signature_dev
              (mkUSig (r_algorithm E request) body_hash (r_canonicalization E request)
                 (r_domain E request) signed_headers (r_identity E request) body_length
                 (r_selector E request) timestamp expiration copied_headers (r_ext_tags E request))
              (r_signing_key E request) (r_format E request) headers
      end
  end
  end.

(** src/signer/mod.rs:620-627: the loop *)
Fixpoint sign_tasks_dev (clock : nat -> N) (i : nat) (headers : list HeaderField)
    (results : BodyHashResults) (tasks : list (SignRequest E))
    : outcome (list (result SigningOutput SigningError)) :=
  match tasks with
  | [] => Val []
  | t :: ts =>
      let! r := perform_signing_dev (clock i) t headers results in
      let! rs := sign_tasks_dev clock (S i) headers results ts in
      Val (r :: rs)
  end.

(** src/signer/mod.rs:615-630 [sign] *)
Definition sign_dev (clock : nat -> N) (s : Signer E)
    : outcome (list (result SigningOutput SigningError)) :=
  let! results := bh_finish (hash_fn C) (sg_body_hasher E s) in
  sign_tasks_dev clock 0 (sg_headers E s) results (sg_tasks E s).

(** the whole signing of a message *)
Definition sign_message_dev (order : list BodyHasherKey -> list BodyHasherKey)
    (headers : list HeaderField) (rs : list (SignRequest E)) (chunks : list (list byte))
    (clock : nat -> N) : outcome (result (list (result SigningOutput SigningError)) RequestError) :=
  let! p := prepare_signing_dev order headers rs in
  match p with
  | Err e => Val (Err e)
  | Ok s =>
      let! s := signer_chunks E s chunks in
      let! results := sign_dev clock s in
      Val (Ok results)
  end.

End Signing.

(** ** src/verifier/ *)

(** src/verifier/verify.rs:54-57 [b_tag_prefix_len] *)
Definition b_tag_prefix_dev (s : str) : outcome (option str) :=
  let! r := strip_tag_name_and_equals_dev s in
  match r with
  | Some (rest, name) =>
      if leqb name (lit "b") then
        let! n := checked_sub (length s) (length rest) in Val (Some (firstn n s))
      else Val None
  | None => Val None
  end.

(** src/verifier/verify.rs:66-84 *)
Fixpoint original_loop_dev (ps : list str) : outcome str :=
  match ps with
  | [] => Val []
  | [p] =>
      if is_nil p then Val p
      else let! r := b_tag_prefix_dev p in Val (match r with Some q => q | None => p end)
  | p :: ps' =>
      let! r := b_tag_prefix_dev p in
      match r with
      | Some q => Val (q ++ [59] ++ join_semi ps')
      | None => let! rest := original_loop_dev ps' in Val (p ++ [59] ++ rest)
      end
  end.

(** src/verifier/verify.rs:53-87 [make_original_dkim_sig] *)
Definition make_original_dkim_sig_dev (value : str) : outcome str :=
  original_loop_dev (split_on 59 value).

Section Verifying.
Variable E : Env.
Notation C := (env_crypto E).
Notation idna := (env_idna E).

(** src/verifier/header.rs:99-134: one header *)
Definition find_signature_dev (headers : list HeaderField) (config : Config) (now : N)
    (index : nat) (name : FieldName) (value : list byte) : outcome VerifyTask :=
  match from_utf8 value with
  | None => Val (task_failed index (DkimSignatureFormat (sig_error_new EUtf8Encoding)) None)
  | Some value =>
      let! r := sig_from_str_dev (env_pre E) idna value in
      match r with
      | Err e => Val (task_failed index (DkimSignatureFormat e) None)
      | Ok sig =>
          match validate_signature E sig now headers config with
          | Some e => Val (task_failed index e (Some sig))
          | None => Val (task_started index sig name value)
          end
      end
  end.

(** src/verifier/header.rs:99-134: the loop *)
Fixpoint find_tasks_dev (headers : list HeaderField) (config : Config) (clock : nat -> N)
    (dh : list (nat * HeaderField)) : outcome (list VerifyTask) :=
  match dh with
  | [] => Val []
  | (index, (name, value)) :: dh' =>
      let! t := find_signature_dev headers config (clock index) index name value in
      let! ts := find_tasks_dev headers config clock dh' in
      Val (t :: ts)
  end.

(** src/verifier/header.rs:89-141 [find_signatures] *)
Definition find_signatures_dev (headers : list HeaderField) (config : Config) (clock : nat -> N)
    : outcome (option (list VerifyTask)) :=
  let! tasks := find_tasks_dev headers config clock (dkim_headers headers config) in
  Val (if is_nil tasks then None else Some tasks).

(** src/verifier/header.rs:269-288 [parse_and_cache] *)
Definition parse_and_cache_dev (c : CachedRecord)
    : outcome (result KeyRecord KeyRecordError * CachedRecord) :=
  match c with
  | Unparsed (Ok s) => let! r := record_from_str_dev (env_pre E) s in Val (r, Parsed r)
  | Unparsed (Err _) => Val (Err RecordFormat, Parsed (Err RecordFormat))
  | Parsed r => Val (r, c)
  end.

(** src/verifier/verify.rs:28-51 [perform_verification] *)
Definition perform_verification_dev (headers : list HeaderField) (key : VerifyingKey C)
    (sig : DkimSig) (name value : str) : outcome (option VerificationError) :=
  let hash_alg := alg_hash (s_algorithm sig) in
  let! original := make_original_dkim_sig_dev value in
  let! data_hash :=
    compute_data_hash_dev (hash_fn C) hash_alg (c_header (s_canonicalization sig)) headers
      (s_signed_headers sig) name original in
  Val (verify_signature E key hash_alg data_hash (s_signature_data sig)).

(** src/verifier/header.rs:361-417: the loop over the cached records *)
Fixpoint try_records_dev (task : VerifyTask) (sig : DkimSig) (headers : list HeaderField)
    (config : Config) (cached : list CachedRecord) : outcome (VerifyTask * list CachedRecord) :=
  match cached with
  | [] => Val (task, [])
  | c :: cs =>
      let! (key_record, c) := parse_and_cache_dev c in
      let continue (t : VerifyTask) :=
        let! (t, cs) := try_records_dev t sig headers config cs in Val (t, c :: cs) in
      match key_record with
      | Err e => continue (set_outcome task (Failed (KeyRecordFormat e)) None)
      | Ok key_record =>
          let fail e := continue (set_outcome task (Failed e) (Some key_record)) in
          let! v := validate_key_record E (alg_key_type (s_algorithm sig))
                      (alg_hash (s_algorithm sig)) key_record (s_domain sig) (s_identity sig) in
          match v with
          | Some e => fail e
          | None =>
              match read_verifying_key E (alg_key_type (s_algorithm sig)) (k_key_data key_record) with
              | Err e => fail (VerificationFailure e)
              | Ok key =>
                  match validate_verifying_key E key config with
                  | Some e => fail e
                  | None =>
                      match vt_header_name task, vt_header_value task with
                      | Some name, Some value =>
                          let! r := perform_verification_dev headers key sig name value in
                          match r with
                          | None => Val (set_outcome task Successful (Some key_record), c :: cs)
                          | Some e => fail e
                          end
                      | _, _ => Panic
                      end
                  end
              end
          end
      end
  end.

(** src/verifier/header.rs:329-418 [verify_task] *)
Definition verify_task_dev (task : VerifyTask) (headers : list HeaderField) (config : Config)
    (lookup_result : result (list CachedRecord) VerificationError)
    : outcome (VerifyTask * result (list CachedRecord) VerificationError) :=
  match vt_signature task with
  | None => Panic
  | Some sig =>
      match lookup_result with
      | Err e => Val (set_outcome task (Failed e) (vt_key_record task), lookup_result)
      | Ok cached =>
          if is_nil cached then Panic
          else
            let! (t, cached) := try_records_dev task sig headers config cached in
            Val (t, Ok cached)
      end
  end.

(** src/verifier/header.rs:165-169: the selected tasks, for one query result *)
Fixpoint verify_selected_dev (headers : list HeaderField) (config : Config) (indexes : list nat)
    (records : result (list CachedRecord) VerificationError) (tasks : list VerifyTask)
    : outcome (list VerifyTask) :=
  match tasks with
  | [] => Val []
  | t :: ts =>
      if mem_nat (vt_index t) indexes then
        let! (t, records) := verify_task_dev t headers config records in
        let! ts := verify_selected_dev headers config indexes records ts in
        Val (t :: ts)
      else
        let! ts := verify_selected_dev headers config indexes records ts in
        Val (t :: ts)
  end.

(** src/verifier/header.rs:154-170: the loop over the query results *)
Fixpoint process_results_dev (headers : list HeaderField) (config : Config)
    (results : list (list nat * QueryResult)) (tasks : list VerifyTask) : outcome (list VerifyTask) :=
  match results with
  | [] => Val tasks
  | (indexes, result) :: rest =>
      let! tasks := verify_selected_dev headers config indexes (map_lookup_result result) tasks in
      process_results_dev headers config rest tasks
  end.

(** src/verifier/mod.rs:602-645 [verify_header], src/verifier/header.rs:143-173 [verify_all] *)
Definition verify_header_dev (w : World) (headers : list HeaderField) (config : Config)
    : outcome (option (Verifier * list ((str * str) * str * N) * N)) :=
  let! found := find_signatures_dev headers config (w_clock w) in
  match found with
  | None => Val None
  | Some tasks =>
      let! pairs := add_lookups idna [] tasks in
      let '(set, elapsed) := spawn_all (w_resolver w) 0 0 (w_query_order w pairs) in
      let! tasks := process_results_dev headers config (map snd set) tasks in
      let! (vtasks, b) := build_tasks E (bhb_new (cf_forbid_unsigned_content config)) tasks in
      Val (Some (mkVerifier vtasks (bhb_build b (w_hasher_order w (bhb_registrations b))),
                 map fst set, elapsed))
  end.

(** the whole verification of a message *)
Definition verify_message_dev (w : World) (headers : list HeaderField) (config : Config)
    (chunks : list (list byte)) : outcome (option (list VerificationResult)) :=
  let! r := verify_header_dev w headers config in
  match r with
  | None => Val None
  | Some (v, _, _) =>
      let! v := verifier_chunks v chunks in
      let! rs := verifier_finish E v in
      Val (Some rs)
  end.

End Verifying.
