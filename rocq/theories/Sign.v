(** Model of src/signer/mod.rs and src/signer/sign.rs.  Definitions only. *)

From Coq Require Import String List.
From Verif Require Import Base Utf8 Canon BodyHash Header Parse TagList Domain Signature Crypto
  Format.

(** src/signer/mod.rs:45-55 [BodyLength], 68-73 [Timestamp], 77-83 [HeaderSelection] *)
Inductive BodyLength := NoLimit | MessageContent | ExactLen (n : N).
Inductive Timestamp := TsNone | TsNow | TsExact (t : N).
Inductive HeaderSelection := Auto | Manual (names : list FieldName).

(** src/signer/mod.rs:57-64 [to_usize]; outer [None] is [TryFromIntError] *)
Definition bl_to_usize (usize_max : N) (b : BodyLength) : option (option N) :=
  match b with
  | NoLimit | MessageContent => Some None
  | ExactLen n => if n <=? usize_max then Some (Some n) else None
  end.

(** src/signer/mod.rs:86-95 [select_headers] *)
Definition select_headers (headers : list HeaderField) (pred : FieldName -> bool) : list FieldName :=
  filter pred (map fst (rev headers)).

(** src/signer/mod.rs:102-132 [default_signed_headers] *)
Definition default_signed_headers : list FieldName :=
  [lit "From"; lit "Reply-To"; lit "Subject"; lit "Date"; lit "To"; lit "Cc";
   lit "Resent-Date"; lit "Resent-From"; lit "Resent-To"; lit "Resent-Cc";
   lit "In-Reply-To"; lit "References"; lit "List-Id"; lit "List-Help";
   lit "List-Unsubscribe"; lit "List-Subscribe"; lit "List-Post"; lit "List-Owner";
   lit "List-Archive"].

(** src/signer/mod.rs:139-152 [default_unsigned_headers] *)
Definition default_unsigned_headers : list FieldName :=
  [lit "Return-Path"; lit "Received"; lit "Comments"; lit "Keywords"].

(** src/signer/mod.rs:156-171 [RequestError] *)
Inductive RequestError :=
| ReqOverflow | MissingFromHeader | TooManyRequests | EmptyRequests | IncompatibleKeyType
| FromHeaderNotSigned | InvalidSignedFieldName | ReqDomainMismatch | ZeroExpirationDuration
| InvalidExtTags | InvalidDkimSignatureHeaderName | InvalidIndentationWhitespace.

(** src/signer/mod.rs:378-384 [SigningError] *)
Inductive SigningError := SigOverflow | InsufficientContent | SigningFailure.

(** src/signer/mod.rs:414-422 [SigningOutput] *)
Record SigningOutput := mkOutput {
  so_header_name : str;
  so_header_value : str;
  so_signature : DkimSig
}.

(** src/signer/mod.rs:220-230 [Default for OutputFormat] *)
Definition default_format : OutputFormat := mkFormat DKIM_SIGNATURE_NAME LINE_WIDTH [TAB] None false.

(** src/signer/mod.rs:403-407, 427-432 [format_header] *)
Definition format_header (o : SigningOutput) : str :=
  so_header_name o ++ [58] ++ so_header_value o.

(** src/signer/mod.rs:442-447 [to_header_field] *)
Definition to_header_field (o : SigningOutput) : outcome HeaderField :=
  match field_name_new (so_header_name o), field_body_new (as_bytes (so_header_value o)) with
  | Some n, Some b => Val (n, b)
  | _, _ => Panic
  end.

(** src/signer/sign.rs:140-143 [select_signed_headers]; membership in the
    [HashSet] of default names is equality of field names *)
Definition select_signed_headers (headers : list HeaderField) : list FieldName :=
  select_headers headers (fun name => existsb (name_eqb name) default_signed_headers).

(** src/signer/sign.rs:201-212 [prepare_copied_headers] *)
Definition prepare_copied_headers (headers : list HeaderField) (selected : list FieldName)
    : list (FieldName * list byte) :=
  filter (fun f => existsb (name_eqb (fst f)) selected) headers.

(** src/signer/mod.rs:354-362: checks of the extension tags *)
Fixpoint ext_tags_bad (seen : list str) (tags : list (str * str)) : bool :=
  match tags with
  | [] => false
  | (name, value) :: rest =>
      if mem_str name seen || negb (is_tag_name name) || negb (is_tag_value value)
         || is_output_tag name
      then true
      else ext_tags_bad (name :: seen) rest
  end.

Section WithEnv.
Variable E : Env.
Notation C := (env_crypto E).
Notation idna := (env_idna E).

(** src/signer/mod.rs:254-286 [SignRequest]; the [Duration] is given in whole
    seconds ([as_secs], the only way it is used) *)
Record SignRequest := mkRequest {
  r_signing_key : SigningKey C;
  r_algorithm : SigningAlg;
  r_canonicalization : Canonicalization;
  r_domain : DomainName;
  r_header_selection : HeaderSelection;
  r_identity : option Identity;
  r_body_length : BodyLength;
  r_selector : Selector;
  r_timestamp : Timestamp;
  r_valid_duration : option N;
  r_copy_headers : bool;
  r_ext_tags : list (str * str);
  r_format : OutputFormat
}.

(** src/signer/mod.rs:289-325 [SignRequest::new] *)
Definition request_new (domain : DomainName) (selector : Selector) (algorithm : SigningAlg)
    (key : SigningKey C) : SignRequest :=
  mkRequest key algorithm (mkCanon Relaxed Simple) domain Auto None NoLimit selector TsNow
    (Some (60 * 60 * 24 * 5)) false [] default_format.

(** src/signer/mod.rs:328-374 [validate_request]; [None] is success *)
Definition validate_request (r : SignRequest) : outcome (option RequestError) :=
  if negb (key_type_eqb (sk_key_type C (r_signing_key r)) (alg_key_type (r_algorithm r)))
  then Val (Some IncompatibleKeyType)
  else if match r_header_selection r with
          | Manual hs => negb (existsb (fun n => name_eqb n (lit "From")) hs)
          | Auto => false
          end
  then Val (Some FromHeaderNotSigned)
  else if match r_header_selection r with
          | Manual hs => existsb (contains_char 59) hs
          | Auto => false
          end
  then Val (Some InvalidSignedFieldName)
  else
    let! ok :=
      match r_identity r with
      | Some identity => eq_or_subdomain_of idna (id_domain identity) (r_domain r)
      | None => Val true
      end in
    if negb ok then Val (Some ReqDomainMismatch)
    else if match r_valid_duration r with Some d => d =? 0 | None => false end
    then Val (Some ZeroExpirationDuration)
    else if ext_tags_bad [] (r_ext_tags r) then Val (Some InvalidExtTags)
    else if negb (eq_ignore_ascii_case (of_header_name (r_format r)) DKIM_SIGNATURE_NAME)
    then Val (Some InvalidDkimSignatureHeaderName)
    else
      let indent := of_indentation (r_format r) in
      if is_nil indent || existsb (fun c => negb (is_wsp c)) indent
      then Val (Some InvalidIndentationWhitespace)
      else Val None.

(** src/signer/mod.rs:523-527 [Signer] *)
Record Signer := mkSigner {
  sg_tasks : list SignRequest;
  sg_headers : list HeaderField;
  sg_body_hasher : BodyHasher
}.

(** src/signer/sign.rs:50: the key of the body hash used by a request *)
Definition request_key (len : option N) (r : SignRequest) : BodyHasherKey :=
  (len, alg_hash (r_algorithm r), c_body (r_canonicalization r)).

(** src/signer/mod.rs:550-566: the loop over the requests *)
Fixpoint prepare_loop (i : nat) (b : BodyHasherBuilder) (requests : list SignRequest)
    : outcome (result BodyHasherBuilder RequestError) :=
  match requests with
  | [] => Val (Ok b)
  | r :: rs =>
      if Nat.leb 10 i then Val (Err TooManyRequests)
      else
        let! v := validate_request r in
        match v with
        | Some e => Val (Err e)
        | None =>
            match bl_to_usize (env_usize_max E) (r_body_length r) with
            | None => Val (Err ReqOverflow)
            | Some body_len => prepare_loop (S i) (bhb_register b (request_key body_len r)) rs
            end
        end
  end.

(** src/signer/mod.rs:539-579 [prepare_signing]; [order] turns the set of
    registrations into the iteration order of the hash map *)
Definition prepare_signing (order : list BodyHasherKey -> list BodyHasherKey)
    (headers : list HeaderField) (requests : list SignRequest)
    : outcome (result Signer RequestError) :=
  if negb (existsb (fun f => name_eqb (fst f) (lit "From")) headers)
  then Val (Err MissingFromHeader)
  else
    let! r := prepare_loop 0 (bhb_new false) requests in
    match r with
    | Err e => Val (Err e)
    | Ok b =>
        if is_nil requests then Val (Err EmptyRequests)
        else Val (Ok (mkSigner requests headers (bhb_build b (order (bhb_registrations b)))))
    end.

(** src/signer/mod.rs:604-606 [process_body_chunk] *)
Definition signer_chunk (s : Signer) (chunk : list byte) : outcome (Stance * Signer) :=
  let! (st, bh) := hash_chunk (sg_body_hasher s) chunk in
  Val (st, mkSigner (sg_tasks s) (sg_headers s) bh).

Fixpoint signer_chunks (s : Signer) (chunks : list (list byte)) : outcome Signer :=
  match chunks with
  | [] => Val s
  | c :: cs => let! (_, s1) := signer_chunk s c in signer_chunks s1 cs
  end.

(** src/signer/sign.rs:214-219 [estimate_b_tag_length] *)
Definition estimate_b_tag_length (k : SigningKey C) : nat :=
  (Nat.div (sk_signature_length C k + 2) 3 * 4)%nat.

(** src/signer/sign.rs:221-244 [sign_hash]; [None] is [SigningFailure] *)
Definition sign_hash (k : SigningKey C) (alg : HashAlg) (data_hash : list byte) : option (list byte) :=
  match k with
  | SkRsa k => rsa_sign C alg k data_hash
  | SkEd25519 k => Some (ed_sign C k data_hash)
  end.

(** src/signer/sign.rs:145-193 [produce_signature] *)
Definition produce_signature (u : USig) (key : SigningKey C) (format : OutputFormat)
    (headers : list HeaderField) : outcome (result SigningOutput SigningError) :=
  let b_len := estimate_b_tag_length key in
  let! (value, insertion_index) := format_without_signature idna u format b_len in
  let header_name := of_header_name format in
  let hash_alg := alg_hash (u_algorithm u) in
  let data_hash := compute_data_hash (hash_fn C) hash_alg (c_header (u_canonicalization u))
                     headers (u_signed_headers u) header_name value in
  if negb (key_type_eqb (sk_key_type C key) (alg_key_type (u_algorithm u))) then Panic
  else
    match sign_hash key hash_alg data_hash with
    | None => Val (Err SigningFailure)
    | Some signature_data =>
        let! value := insert_signature_data value insertion_index header_name signature_data
                        (of_line_width format) (of_indentation format) in
        Val (Ok (mkOutput header_name value (into_signature u signature_data)))
    end.

(** src/signer/sign.rs:31-138 [perform_signing]; [now] is the system time read
    by [now_unix_secs] (195-199), which is called at most once *)
Definition perform_signing (now : N) (request : SignRequest) (headers : list HeaderField)
    (body_hash_results : BodyHashResults) : outcome (result SigningOutput SigningError) :=
  match bl_to_usize (env_usize_max E) (r_body_length request) with
  | None => Panic
  | Some body_length =>
  match results_get body_hash_results (request_key body_length request) with
  | None => Panic
  | Some (Err InputTruncated) => Panic
  | Some (Err InsufficientInput) => Val (Err InsufficientContent)
  | Some (Ok (body_hash, final_len)) =>
      match
        match r_body_length request with
        | NoLimit => Some None
        | MessageContent | ExactLen _ => if final_len <=? u64_max then Some (Some final_len) else None
        end
      with
      | None => Val (Err SigOverflow)
      | Some body_length =>
          let signed_headers :=
            match r_header_selection request with
            | Auto => select_signed_headers headers
            | Manual h => h
            end in
          if negb (existsb (fun n => name_eqb n (lit "From")) signed_headers) then Panic
          else if existsb (contains_char 59) signed_headers then Panic
          else
            let timestamp :=
              match r_timestamp request with
              | TsNone => None
              | TsNow => Some now
              | TsExact t => Some t
              end in
            let expiration :=
              option_map (fun d => saturating_add (unwrap_or timestamp now) d)
                (r_valid_duration request) in
            let copied_headers :=
              if r_copy_headers request then prepare_copied_headers headers signed_headers else [] in
            produce_signature
              (mkUSig (r_algorithm request) body_hash (r_canonicalization request)
                 (r_domain request) signed_headers (r_identity request) body_length
                 (r_selector request) timestamp expiration copied_headers (r_ext_tags request))
              (r_signing_key request) (r_format request) headers
      end
  end
  end.

(** src/signer/mod.rs:620-627: the loop; [clock i] is the time of the [i]-th request *)
Fixpoint sign_tasks (clock : nat -> N) (i : nat) (headers : list HeaderField)
    (results : BodyHashResults) (tasks : list SignRequest)
    : outcome (list (result SigningOutput SigningError)) :=
  match tasks with
  | [] => Val []
  | t :: ts =>
      let! r := perform_signing (clock i) t headers results in
      let! rs := sign_tasks clock (S i) headers results ts in
      Val (r :: rs)
  end.

(** src/signer/mod.rs:615-630 [sign] *)
Definition sign (clock : nat -> N) (s : Signer) : outcome (list (result SigningOutput SigningError)) :=
  let! results := bh_finish (hash_fn C) (sg_body_hasher s) in
  sign_tasks clock 0 (sg_headers s) results (sg_tasks s).

End WithEnv.
