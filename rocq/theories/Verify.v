(** Model of src/verifier/: mod.rs, header.rs, query.rs, verify.rs.
    Definitions only. *)

From Coq Require Import String List.
From Verif Require Import Base Utf8 Canon BodyHash Header TagList Domain Signature KeyRecord Crypto.

(** src/crypto/mod.rs:320-324 [VerificationError] *)
Inductive CryptoVerificationError := InvalidKey | InsufficientKeySize | CryptoVerificationFailure.

(** src/verifier/mod.rs:281-317 [PolicyError] *)
Inductive PolicyError :=
| RequiredHeaderNotSigned | UnsignedHeaderOccurrence | UnsignedContent | SignatureExpired
| TimestampInFuture | Sha1HashAlgorithm | KeyTooSmall.

(** src/verifier/mod.rs:337-353 [VerificationError] *)
Inductive VerificationError :=
| DkimSignatureFormat (e : SigError)
| VOverflow
| NoKeyFound
| InvalidKeyDomain
| VTimeout
| KeyLookup
| KeyRecordFormat (e : KeyRecordError)
| WrongKeyType
| KeyRevoked
| DisallowedHashAlgorithm
| VDomainMismatch
| VerificationFailure (e : CryptoVerificationError)
| VInsufficientContent
| BodyHashMismatch
| Policy (e : PolicyError).

(** src/verifier/mod.rs:194-199 [VerificationStatus] *)
Inductive VerificationStatus := Success | Failure (e : VerificationError).

(** src/verifier/mod.rs:414-462 [DkimResult] *)
Inductive DkimResult := RNone | RPass | RFail | RPolicy | RNeutral | RTemperror | RPermerror.

(** src/verifier/mod.rs:203-274 [to_dkim_result] *)
Definition to_dkim_result (s : VerificationStatus) : DkimResult :=
  match s with
  | Success => RPass
  | Failure error =>
      match error with
      | DkimSignatureFormat e =>
          match se_kind e with
          | EUtf8Encoding | ETagListFormat | EIncompatibleVersion | EUnsupportedAlgorithm
          | EInvalidBase64 | EUnsupportedCanonicalization | EInvalidDomain
          | EInvalidSignedHeaderName | EInvalidIdentity | EInvalidBodyLength
          | EInvalidQueryMethod | ENoSupportedQueryMethods | EInvalidSelector
          | EInvalidTimestamp | EInvalidExpiration | EInvalidCopiedHeaderField => RNeutral
          | EHistoricAlgorithm | EEmptySignatureTag | EEmptyBodyHashTag | EEmptySignedHeadersTag
          | EFromHeaderNotSigned | EMissingVersionTag | EMissingAlgorithmTag
          | EMissingSignatureTag | EMissingBodyHashTag | EMissingDomainTag
          | EMissingSignedHeadersTag | EMissingSelectorTag | EDomainMismatch
          | EExpirationNotAfterTimestamp => RPermerror
          end
      | VOverflow => RNeutral
      | NoKeyFound | InvalidKeyDomain | WrongKeyType | KeyRevoked | DisallowedHashAlgorithm
      | VDomainMismatch | VInsufficientContent => RPermerror
      | VTimeout | KeyLookup => RTemperror
      | KeyRecordFormat e =>
          match e with
          | RecordFormat | KTagListFormat | KIncompatibleVersion | InvalidHashAlgorithm
          | NoSupportedHashAlgorithms | UnsupportedKeyType | InvalidQuotedPrintable
          | KInvalidBase64 | InvalidServiceType | NoSupportedServiceTypes | InvalidFlag => RNeutral
          | MisplacedVersionTag | MissingKeyTag => RPermerror
          end
      | VerificationFailure e =>
          match e with
          | InvalidKey | InsufficientKeySize => RPermerror
          | CryptoVerificationFailure => RFail
          end
      | BodyHashMismatch => RFail
      | Policy _ => RPolicy
      end
  end.

(** src/verifier/mod.rs:51-138 [Config]; durations in whole seconds
    ([as_secs]), [cf_fixed_system_time] as seconds since the epoch (0 if before).
    [min_key_bits] and [max_signatures] are [usize]. *)
Record Config := mkConfig {
  cf_lookup_timeout : N;
  cf_max_signatures : nat;
  cf_headers_required_in_signature : list FieldName;
  cf_headers_forbidden_to_be_unsigned : list FieldName;
  cf_min_key_bits : N;
  cf_allow_sha1 : bool;
  cf_forbid_unsigned_content : bool;
  cf_allow_expired : bool;
  cf_allow_timestamp_in_future : bool;
  cf_time_tolerance : N;
  cf_fixed_system_time : option N
}.

(** src/verifier/mod.rs:150-166 [Default for Config] *)
Definition default_config : Config :=
  mkConfig 10 10 [] [lit "From"] 1024 false false false false (5 * 60) None.

(** src/verifier/mod.rs:141-147 [current_timestamp]; [now] is [SystemTime::now] *)
Definition current_timestamp (c : Config) (now : N) : N := unwrap_or (cf_fixed_system_time c) now.

(** src/verifier/header.rs:230-259 [validate_signed_headers]; [None] is success *)
Definition validate_signed_headers (headers : list HeaderField)
    (required forbidden signed_headers : list FieldName) : option VerificationError :=
  if existsb (fun h => negb (existsb (name_eqb h) signed_headers)) required
  then Some (Policy RequiredHeaderNotSigned)
  else if existsb
      (fun req =>
         let actual_n := length (filter (fun f => name_eqb (fst f) req) headers) in
         let signed_n := length (firstn actual_n (filter (fun n => name_eqb n req) signed_headers)) in
         Nat.ltb signed_n actual_n)
      forbidden
  then Some (Policy UnsignedHeaderOccurrence)
  else None.

(** src/verifier/verify.rs:54-57 [b_tag_prefix_len]: the prefix up to and
    including the equals sign *)
Definition b_tag_prefix (s : str) : option str :=
  match strip_tag_name_and_equals s with
  | Some (rest, name) =>
      if leqb name (lit "b") then Some (firstn (length s - length rest) s) else None
  | None => None
  end.

Fixpoint join_semi (ps : list str) : str :=
  match ps with
  | [] => []
  | [p] => p
  | p :: ps' => p ++ [59] ++ join_semi ps'
  end.

(** src/verifier/verify.rs:66-84: the loop over the semicolons, here over the
    pieces between them *)
Fixpoint original_loop (ps : list str) : str :=
  match ps with
  | [] => []
  | [p] =>
      if is_nil p then p
      else match b_tag_prefix p with Some q => q | None => p end
  | p :: ps' =>
      match b_tag_prefix p with
      | Some q => q ++ [59] ++ join_semi ps'
      | None => p ++ [59] ++ original_loop ps'
      end
  end.

(** src/verifier/verify.rs:53-87 [make_original_dkim_sig] *)
Definition make_original_dkim_sig (value : str) : str := original_loop (split_on 59 value).

(** std [io::ErrorKind], as far as distinguished *)
Inductive IoErrorKind := NotFound | InvalidInput | TimedOut | InvalidData | OtherKind (n : N).

Definition IoResult (A : Type) := result A IoErrorKind.

(** src/verifier/query.rs:100-102 [parse_utf8] *)
Definition parse_utf8 (txt : IoResult (list byte)) : IoResult str :=
  match txt with
  | Ok bs => match from_utf8 bs with Some s => Ok s | None => Err InvalidData end
  | Err e => Err e
  end.

(** src/verifier/query.rs:119-126: the loop; [i] is the position *)
Fixpoint select_txts (i : nat) (last : option (IoResult (list byte)))
    (txts : list (IoResult (list byte))) : list (IoResult str) :=
  match txts with
  | [] => match last with Some t => [parse_utf8 t] | None => [] end
  | t :: ts =>
      if Nat.ltb i 2 then parse_utf8 t :: select_txts (S i) last ts
      else select_txts (S i) (Some t) ts
  end.

(** src/verifier/query.rs:93 [QueryResult] *)
Definition QueryResult := IoResult (list (IoResult str)).

(** src/verifier/query.rs:105 *)
Definition query_name (domain selector : str) : str :=
  selector ++ lit "._domainkey." ++ domain ++ [46].

(** A resolver ([LookupTxt]): the answer to the [n]-th query, and how long it
    takes to arrive. *)
Record Resolver := mkResolver {
  rs_answer : nat -> str -> IoResult (list (IoResult (list byte)));
  rs_latency : nat -> str -> N
}.

(** src/verifier/query.rs:95-132 [look_up_records] *)
Definition look_up_records (r : Resolver) (n : nat) (domain selector : str) : QueryResult :=
  match rs_answer r n (query_name domain selector) with
  | Err e => Err e
  | Ok txts => Ok (select_txts 0 None txts)
  end.

(** src/verifier/query.rs:31-34: the [HashMap] of lookup pairs *)
Notation LookupPairs := (list ((str * str) * list nat)) (only parsing).

Definition pair_eqb (p q : str * str) : bool := leqb (fst p) (fst q) && leqb (snd p) (snd q).

(** src/verifier/query.rs:47-50: [entry(..).or_default().insert(index)] *)
Fixpoint insert_index (key : str * str) (index : nat) (ps : LookupPairs) : LookupPairs :=
  match ps with
  | [] => [(key, [index])]
  | (k, is) :: ps' =>
      if pair_eqb key k then (k, if mem_nat index is then is else is ++ [index]) :: ps'
      else (k, is) :: insert_index key index ps'
  end.

(** src/verifier/query.rs:53-90 [spawn_all]: lookups one after the other, from
    query number [n] and time [t]; the result lists, for each lookup, the pair,
    the name queried, the time it was started, the indexes, and the result; and
    the time at the end.  As in the code, [lookup_timeout] is not used. *)
Fixpoint spawn_all (r : Resolver) (n : nat) (t : N) (ps : LookupPairs)
    : list ((str * str) * str * N * (list nat * QueryResult)) * N :=
  match ps with
  | [] => ([], t)
  | ((domain, selector), indexes) :: ps' =>
      let name := query_name domain selector in
      let f := look_up_records r n domain selector in
      let '(rest, t') := spawn_all r (S n) (t + rs_latency r n name) ps' in
      (((domain, selector), name, t, (indexes, f)) :: rest, t')
  end.

(** src/verifier/header.rs:263-266 [CachedDkimKeyRecord] *)
Inductive CachedRecord :=
| Unparsed (s : IoResult str)
| Parsed (r : result KeyRecord KeyRecordError).

(** src/verifier/header.rs:291-327 [map_lookup_result_to_key_records] *)
Definition map_lookup_result (q : QueryResult) : result (list CachedRecord) VerificationError :=
  match q with
  | Ok [] => Err NoKeyFound
  | Ok txts => Ok (map Unparsed txts)
  | Err e =>
      Err match e with
          | NotFound => NoKeyFound
          | InvalidInput => InvalidKeyDomain
          | TimedOut => VTimeout
          | _ => KeyLookup
          end
  end.

(** src/verifier/header.rs:40-44 [VerifyStatus] *)
Inductive VerifyStatus := InProgress | Failed (e : VerificationError) | Successful.

(** src/verifier/header.rs:47-55 [VerifyTask] *)
Record VerifyTask := mkTask {
  vt_header_name : option str;
  vt_header_value : option str;
  vt_status : VerifyStatus;
  vt_index : nat;
  vt_signature : option DkimSig;
  vt_key_record : option KeyRecord
}.

(** src/verifier/header.rs:58-67 [failed] *)
Definition task_failed (index : nat) (error : VerificationError) (sig : option DkimSig) : VerifyTask :=
  mkTask None None (Failed error) index sig None.

(** src/verifier/header.rs:69-78 [started] *)
Definition task_started (index : nat) (sig : DkimSig) (name value : str) : VerifyTask :=
  mkTask (Some name) (Some value) InProgress index (Some sig) None.

Definition set_outcome (t : VerifyTask) (s : VerifyStatus) (k : option KeyRecord) : VerifyTask :=
  mkTask (vt_header_name t) (vt_header_value t) s (vt_index t) (vt_signature t) k.

(** src/verifier/query.rs:43-51 [add_lookup] and 140-155 [spawn]: the lookups of
    the tasks in progress *)
Section Lookups.
Variable idna : Idna.

Fixpoint add_lookups (ps : LookupPairs) (tasks : list VerifyTask) : outcome LookupPairs :=
  match tasks with
  | [] => Val ps
  | t :: ts =>
      match vt_status t with
      | InProgress =>
          match vt_signature t with
          | None => Panic
          | Some sig =>
              let! domain := domain_to_ascii idna (s_domain sig) in
              let! selector := domain_to_ascii idna (s_selector sig) in
              add_lookups (insert_index (domain, selector) (vt_index t) ps) ts
          end
      | _ => add_lookups ps ts
      end
  end.
End Lookups.

(** src/message_hash.rs:79-85 [body_hasher_key] *)
Definition body_hasher_key (usize_max : N) (sig : DkimSig) : outcome BodyHasherKey :=
  let! body_len :=
    match s_body_length sig with
    | None => Val None
    | Some n => if n <=? usize_max then Val (Some n) else Panic
    end in
  Val (body_len, alg_hash (s_algorithm sig), c_body (s_canonicalization sig)).

(** src/verifier/mod.rs:490-495 [VerifierTask], 170-186 [VerificationResult] *)
Record VerificationResult := mkVResult {
  vr_status : VerificationStatus;
  vr_index : nat;
  vr_signature : option DkimSig;
  vr_key_record : option KeyRecord
}.

(** src/verifier/mod.rs:588-591 [Verifier] *)
Record Verifier := mkVerifier {
  vf_tasks : list VerificationResult;
  vf_body_hasher : BodyHasher
}.

(** src/verifier/mod.rs:706-736 [verify_body_hash] *)
Definition verify_body_hash (usize_max : N) (sig : DkimSig) (results : BodyHashResults)
    : outcome VerificationStatus :=
  let! key := body_hasher_key usize_max sig in
  match results_get results key with
  | None => Panic
  | Some (Ok (h, _)) =>
      Val (if leqb h (s_body_hash sig) then Success else Failure BodyHashMismatch)
  | Some (Err InsufficientInput) => Val (Failure VInsufficientContent)
  | Some (Err InputTruncated) => Val (Failure (Policy UnsignedContent))
  end.

(** src/verifier/mod.rs:682-700: the loop of [finish] *)
Fixpoint finish_tasks (usize_max : N) (results : BodyHashResults) (tasks : list VerificationResult)
    : outcome (list VerificationResult) :=
  match tasks with
  | [] => Val []
  | t :: ts =>
      let! final_status :=
        match vr_status t with
        | Success =>
            match vr_signature t with
            | None => Panic
            | Some sig => verify_body_hash usize_max sig results
            end
        | Failure e => Val (Failure e)
        end in
      let! rest := finish_tasks usize_max results ts in
      Val (mkVResult final_status (vr_index t) (vr_signature t) (vr_key_record t) :: rest)
  end.

Section WithEnv.
Variable E : Env.
Notation C := (env_crypto E).
Notation idna := (env_idna E).

(** src/verifier/header.rs:176-228 [validate_signature]; [None] is success *)
Definition validate_signature (sig : DkimSig) (now : N) (headers : list HeaderField)
    (config : Config) : option VerificationError :=
  match validate_signed_headers headers (cf_headers_required_in_signature config)
          (cf_headers_forbidden_to_be_unsigned config) (s_signed_headers sig) with
  | Some e => Some e
  | None =>
      if match s_body_length sig with Some len => negb (len <=? env_usize_max E) | None => false end
      then Some VOverflow
      else
        let current_t := current_timestamp config now in
        let delta := cf_time_tolerance config in
        if negb (cf_allow_expired config)
           && match s_expiration sig with
              | Some t => saturating_add t delta <=? current_t
              | None => false
              end
        then Some (Policy SignatureExpired)
        else if negb (cf_allow_timestamp_in_future config)
                && match s_timestamp sig with
                   | Some t => current_t <? saturating_sub t delta
                   | None => false
                   end
        then Some (Policy TimestampInFuture)
        else if env_pre E && negb (cf_allow_sha1 config)
                && hash_alg_eqb (alg_hash (s_algorithm sig)) Sha1
        then Some (Policy Sha1HashAlgorithm)
        else None
  end.

(** src/verifier/header.rs:99-134: one header *)
Definition find_signature (headers : list HeaderField) (config : Config) (now : N)
    (index : nat) (name : FieldName) (value : list byte) : outcome VerifyTask :=
  match from_utf8 value with
  | None => Val (task_failed index (DkimSignatureFormat (sig_error_new EUtf8Encoding)) None)
  | Some value =>
      let! r := sig_from_str (env_pre E) idna value in
      match r with
      | Err e => Val (task_failed index (DkimSignatureFormat e) None)
      | Ok sig =>
          match validate_signature sig now headers config with
          | Some e => Val (task_failed index e (Some sig))
          | None => Val (task_started index sig name value)
          end
      end
  end.

(** [enumerate] *)
Fixpoint enumerate {A} (i : nat) (l : list A) : list (nat * A) :=
  match l with
  | [] => []
  | x :: l' => (i, x) :: enumerate (S i) l'
  end.

(** src/verifier/header.rs:92-97: the headers considered *)
Definition dkim_headers (headers : list HeaderField) (config : Config) : list (nat * HeaderField) :=
  firstn (cf_max_signatures config)
    (filter (fun f => name_eqb (fst (snd f)) DKIM_SIGNATURE_NAME) (enumerate 0 headers)).

(** src/verifier/header.rs:99-134: the loop; [clock index] is the system time
    read when the header with this index is examined *)
Fixpoint find_tasks (headers : list HeaderField) (config : Config) (clock : nat -> N)
    (dh : list (nat * HeaderField)) : outcome (list VerifyTask) :=
  match dh with
  | [] => Val []
  | (index, (name, value)) :: dh' =>
      let! t := find_signature headers config (clock index) index name value in
      let! ts := find_tasks headers config clock dh' in
      Val (t :: ts)
  end.

(** src/verifier/header.rs:89-141 [find_signatures] *)
Definition find_signatures (headers : list HeaderField) (config : Config) (clock : nat -> N)
    : outcome (option (list VerifyTask)) :=
  let! tasks := find_tasks headers config clock (dkim_headers headers config) in
  Val (if is_nil tasks then None else Some tasks).

(** src/verifier/header.rs:269-288 [parse_and_cache] *)
Definition parse_and_cache (c : CachedRecord) : outcome (result KeyRecord KeyRecordError * CachedRecord) :=
  match c with
  | Unparsed (Ok s) => let! r := record_from_str (env_pre E) s in Val (r, Parsed r)
  | Unparsed (Err _) => Val (Err RecordFormat, Parsed (Err RecordFormat))
  | Parsed r => Val (r, c)
  end.

(** src/verifier/header.rs:420-455 [validate_key_record] *)
Definition validate_key_record (key_type : KeyType) (hash_alg : HashAlg) (record : KeyRecord)
    (domain : DomainName) (identity : option Identity) : outcome (option VerificationError) :=
  if negb (key_type_eqb (k_key_type record) key_type) then Val (Some WrongKeyType)
  else if is_nil (k_key_data record) then Val (Some KeyRevoked)
  else if negb (existsb (hash_alg_eqb hash_alg) (k_hash_algorithms record))
  then Val (Some DisallowedHashAlgorithm)
  else if existsb (fun f => match f with NoSubdomains => true | Testing => false end) (k_flags record)
  then
    match identity with
    | Some identity =>
        let! d := domain_to_ascii idna domain in
        let! i := domain_to_ascii idna (id_domain identity) in
        Val (if negb (leqb d i) then Some VDomainMismatch else None)
    | None => Val None
    end
  else Val None.

(** src/verifier/header.rs:457-475 [read_verifying_key] *)
Definition read_verifying_key (key_type : KeyType) (key_data : list byte)
    : result (VerifyingKey C) CryptoVerificationError :=
  match vk_from_key_data C key_type key_data with
  | None => Err InvalidKey
  | Some key => if validate_min_key_size C (env_pre E) key then Ok key else Err InsufficientKeySize
  end.

(** src/verifier/header.rs:477-488 [validate_verifying_key]; [None] is success *)
Definition validate_verifying_key (key : VerifyingKey C) (config : Config) : option VerificationError :=
  match vk_key_size C key with
  | Some n => if n <? cf_min_key_bits config then Some (Policy KeyTooSmall) else None
  | None => None
  end.

(** src/verifier/verify.rs:89-125 [verify_signature] *)
Definition verify_signature (key : VerifyingKey C) (hash_alg : HashAlg)
    (data_hash signature_data : list byte) : option VerificationError :=
  if match key with
     | VkRsa pk => rsa_verify C pk hash_alg data_hash signature_data
     | VkEd25519 pk => ed_verify C pk data_hash signature_data
     end
  then None
  else Some (VerificationFailure CryptoVerificationFailure).

(** src/verifier/verify.rs:28-51 [perform_verification]; [None] is success *)
Definition perform_verification (headers : list HeaderField) (key : VerifyingKey C)
    (sig : DkimSig) (name value : str) : option VerificationError :=
  let hash_alg := alg_hash (s_algorithm sig) in
  let data_hash :=
    compute_data_hash (hash_fn C) hash_alg (c_header (s_canonicalization sig)) headers
      (s_signed_headers sig) name (make_original_dkim_sig value) in
  verify_signature key hash_alg data_hash (s_signature_data sig).

(** src/verifier/header.rs:361-417: the loop over the cached records; the
    result includes the updated cache *)
Fixpoint try_records (task : VerifyTask) (sig : DkimSig) (headers : list HeaderField)
    (config : Config) (cached : list CachedRecord) : outcome (VerifyTask * list CachedRecord) :=
  match cached with
  | [] => Val (task, [])
  | c :: cs =>
      let! (key_record, c) := parse_and_cache c in
      let continue (t : VerifyTask) :=
        let! (t, cs) := try_records t sig headers config cs in Val (t, c :: cs) in
      match key_record with
      | Err e => continue (set_outcome task (Failed (KeyRecordFormat e)) None)
      | Ok key_record =>
          let fail e := continue (set_outcome task (Failed e) (Some key_record)) in
          let! v := validate_key_record (alg_key_type (s_algorithm sig))
                      (alg_hash (s_algorithm sig)) key_record (s_domain sig) (s_identity sig) in
          match v with
          | Some e => fail e
          | None =>
              match read_verifying_key (alg_key_type (s_algorithm sig)) (k_key_data key_record) with
              | Err e => fail (VerificationFailure e)
              | Ok key =>
                  match validate_verifying_key key config with
                  | Some e => fail e
                  | None =>
                      match vt_header_name task, vt_header_value task with
                      | Some name, Some value =>
                          match perform_verification headers key sig name value with
                          | None => Val (set_outcome task Successful (Some key_record), c :: cs)
                          | Some e => fail e
                          end
                      | _, _ => Panic
                      end
                  end
              end
          end
      end
  end.

(** src/verifier/header.rs:329-418 [verify_task] *)
Definition verify_task (task : VerifyTask) (headers : list HeaderField) (config : Config)
    (lookup_result : result (list CachedRecord) VerificationError)
    : outcome (VerifyTask * result (list CachedRecord) VerificationError) :=
  match vt_signature task with
  | None => Panic
  | Some sig =>
      match lookup_result with
      | Err e => Val (set_outcome task (Failed e) (vt_key_record task), lookup_result)
      | Ok cached =>
          if is_nil cached then Panic
          else
            let! (t, cached) := try_records task sig headers config cached in
            Val (t, Ok cached)
      end
  end.

(** src/verifier/header.rs:165-169: the selected tasks, for one query result *)
Fixpoint verify_selected (headers : list HeaderField) (config : Config) (indexes : list nat)
    (records : result (list CachedRecord) VerificationError) (tasks : list VerifyTask)
    : outcome (list VerifyTask) :=
  match tasks with
  | [] => Val []
  | t :: ts =>
      if mem_nat (vt_index t) indexes then
        let! (t, records) := verify_task t headers config records in
        let! ts := verify_selected headers config indexes records ts in
        Val (t :: ts)
      else
        let! ts := verify_selected headers config indexes records ts in
        Val (t :: ts)
  end.

(** src/verifier/header.rs:154-170: the loop over the query results *)
Fixpoint process_results (headers : list HeaderField) (config : Config)
    (results : list (list nat * QueryResult)) (tasks : list VerifyTask) : outcome (list VerifyTask) :=
  match results with
  | [] => Val tasks
  | (indexes, result) :: rest =>
      let! tasks := verify_selected headers config indexes (map_lookup_result result) tasks in
      process_results headers config rest tasks
  end.

(** src/verifier/mod.rs:617-640: the loop building verifier tasks and
    registering body hashes *)
Fixpoint build_tasks (b : BodyHasherBuilder) (tasks : list VerifyTask)
    : outcome (list VerificationResult * BodyHasherBuilder) :=
  match tasks with
  | [] => Val ([], b)
  | t :: ts =>
      let! (status, b) :=
        match vt_status t with
        | InProgress => Panic
        | Failed e => Val (Failure e, b)
        | Successful =>
            match vt_signature t with
            | None => Panic
            | Some sig =>
                let! key := body_hasher_key (env_usize_max E) sig in
                Val (Success, bhb_register b key)
            end
        end in
      let! (rest, b) := build_tasks b ts in
      Val (mkVResult status (vt_index t) (vt_signature t) (vt_key_record t) :: rest, b)
  end.

(** What surrounds a verification: the resolver, the system clock, and the
    iteration orders of the two hash maps (the lookups, the body hashers). *)
Record World := mkWorld {
  w_resolver : Resolver;
  w_clock : nat -> N;
  w_query_order : LookupPairs -> LookupPairs;
  w_hasher_order : list BodyHasherKey -> list BodyHasherKey
}.

(** src/verifier/mod.rs:602-645 [verify_header] and src/verifier/header.rs:143-173
    [verify_all]; besides the verifier, the result has the log of the lookups
    (pair, name, start time) and the time spent *)
Definition verify_header (w : World) (headers : list HeaderField) (config : Config)
    : outcome (option (Verifier * list ((str * str) * str * N) * N)) :=
  let! found := find_signatures headers config (w_clock w) in
  match found with
  | None => Val None
  | Some tasks =>
      let! pairs := add_lookups idna [] tasks in
      let '(set, elapsed) := spawn_all (w_resolver w) 0 0 (w_query_order w pairs) in
      let! tasks := process_results headers config (map snd set) tasks in
      let! (vtasks, b) := build_tasks (bhb_new (cf_forbid_unsigned_content config)) tasks in
      Val (Some (mkVerifier vtasks (bhb_build b (w_hasher_order w (bhb_registrations b))),
                 map fst set, elapsed))
  end.

(** src/verifier/mod.rs:670-672 [process_body_chunk] *)
Definition verifier_chunk (v : Verifier) (chunk : list byte) : outcome (Stance * Verifier) :=
  let! (st, bh) := hash_chunk (vf_body_hasher v) chunk in
  Val (st, mkVerifier (vf_tasks v) bh).

Fixpoint verifier_chunks (v : Verifier) (chunks : list (list byte)) : outcome Verifier :=
  match chunks with
  | [] => Val v
  | c :: cs => let! (_, v1) := verifier_chunk v c in verifier_chunks v1 cs
  end.

(** src/verifier/mod.rs:677-703 [finish] *)
Definition verifier_finish (v : Verifier) : outcome (list VerificationResult) :=
  let! results := bh_finish (hash_fn C) (vf_body_hasher v) in
  finish_tasks (env_usize_max E) results (vf_tasks v).

(** The whole verification of a message whose body arrives in [chunks]: [None]
    if there is no signature to verify. *)
Definition verify_message (w : World) (headers : list HeaderField) (config : Config)
    (chunks : list (list byte)) : outcome (option (list VerificationResult)) :=
  let! r := verify_header w headers config in
  match r with
  | None => Val None
  | Some (v, _, _) =>
      let! v := verifier_chunks v chunks in
      let! rs := verifier_finish v in
      Val (Some rs)
  end.

End WithEnv.
