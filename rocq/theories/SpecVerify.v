(** Specification of verification: which signatures are examined, which checks
    are made in what order, and which result each signature has. *)

From Coq Require Import String List Permutation.
From Verif Require Import Base Utf8 Canon BodyHash Header TagList Domain Signature KeyRecord Crypto Verify
  SpecText SpecCanon SpecHash SpecHeader SpecTag SpecDomain SpecSig SpecRecord SpecSign.

(** ** Signatures examined *)

(** the fields named DKIM-Signature, with their positions *)
Fixpoint signature_fields (i : nat) (headers : list HeaderField) : list (nat * HeaderField) :=
  match headers with
  | [] => []
  | f :: fs =>
      (if same_nameb (fst f) (lit "DKIM-Signature") then [(i, f)] else [])
      ++ signature_fields (S i) fs
  end.

Definition examined (config : Config) (headers : list HeaderField) : list (nat * HeaderField) :=
  firstn (cf_max_signatures config) (signature_fields 0 headers).

(** ** Key records consulted *)

(** the first two and the last *)
Definition consulted {A} (txts : list A) : list A :=
  match txts with
  | a :: b :: c :: more => [a; b; last (c :: more) c]
  | _ => txts
  end.

(** a record as text, if it is UTF-8 *)
Inductive record_text : IoResult (list byte) -> option str -> Prop :=
| rt_ok : forall s, Forall is_scalar s -> record_text (Ok (as_bytes s)) (Some s)
| rt_not_utf8 : forall bs, (forall s, Forall is_scalar s -> bs <> as_bytes s) -> record_text (Ok bs) None
| rt_error : forall e, record_text (Err e) None.

Section WithEnv.
Variable E : Env.
Notation C := (env_crypto E).
Notation idna := (env_idna E).

(** ** Checks on a signature *)

Definition seconds (config : Config) (now : N) : N :=
  match cf_fixed_system_time config with Some t => t | None => now end.

(** a header that must be signed is not *)
Definition required_missing (config : Config) (sig : DkimSig) : Prop :=
  exists n, In n (cf_headers_required_in_signature config)
    /\ forall m, In m (s_signed_headers sig) -> ~ same_name m n.

(** a header that must not occur unsigned has more instances than are signed *)
Definition unsigned_occurrence (headers : list HeaderField) (config : Config) (sig : DkimSig) : Prop :=
  exists n, In n (cf_headers_forbidden_to_be_unsigned config)
    /\ (occurrences n (s_signed_headers sig) < occurrences n (map fst headers))%nat.

Definition length_unusable (sig : DkimSig) : Prop :=
  exists l, s_body_length sig = Some l /\ env_usize_max E < l.

Definition expired (config : Config) (now : N) (sig : DkimSig) : Prop :=
  cf_allow_expired config = false
  /\ exists x, s_expiration sig = Some x
       /\ N.min (x + cf_time_tolerance config) (2^64 - 1) <= seconds config now.

Definition in_future (config : Config) (now : N) (sig : DkimSig) : Prop :=
  cf_allow_timestamp_in_future config = false
  /\ exists t, s_timestamp sig = Some t /\ seconds config now + cf_time_tolerance config < t.

Definition forbidden_sha1 (config : Config) (sig : DkimSig) : Prop :=
  cf_allow_sha1 config = false /\ alg_hash (s_algorithm sig) = Sha1.

Definition signature_checks (headers : list HeaderField) (config : Config) (now : N) (sig : DkimSig)
    : list (Prop * VerificationError) :=
  [(required_missing config sig, Policy RequiredHeaderNotSigned);
   (unsigned_occurrence headers config sig, Policy UnsignedHeaderOccurrence);
   (length_unusable sig, VOverflow);
   (expired config now sig, Policy SignatureExpired);
   (in_future config now sig, Policy TimestampInFuture);
   (forbidden_sha1 config sig, Policy Sha1HashAlgorithm)].

(** all of these passed, said positively *)
Definition signature_good (headers : list HeaderField) (config : Config) (now : N) (sig : DkimSig) : Prop :=
  let t0 := seconds config now in
  (forall n, In n (cf_headers_required_in_signature config) -> exists m, In m (s_signed_headers sig) /\ same_name m n)
  /\ (forall n, In n (cf_headers_forbidden_to_be_unsigned config) ->
        (occurrences n (map fst headers) <= occurrences n (s_signed_headers sig))%nat)
  /\ (forall l, s_body_length sig = Some l -> l <= env_usize_max E)
  /\ (cf_allow_expired config = false -> forall x, s_expiration sig = Some x ->
        t0 < x + cf_time_tolerance config /\ t0 < 2^64 - 1)
  /\ (cf_allow_timestamp_in_future config = false -> forall t, s_timestamp sig = Some t ->
        t <= t0 + cf_time_tolerance config)
  /\ (cf_allow_sha1 config = false -> alg_hash (s_algorithm sig) = Sha256).

(** ** Checks on a key record *)

(** the key in a record *)
Inductive key_in : KeyType -> list byte -> VerifyingKey C -> Prop :=
| ki_spki : forall d k, rsa_from_spki C d = Some k -> key_in Rsa d (VkRsa k)
| ki_pkcs1 : forall d k, rsa_from_spki C d = None -> rsa_from_pkcs1 C d = Some k -> key_in Rsa d (VkRsa k)
| ki_raw : forall d k, ed_from_raw C d = Some k -> key_in Ed25519 d (VkEd25519 k)
| ki_ed_spki : forall d k, ed_from_raw C d = None -> ed_from_spki C d = Some k -> key_in Ed25519 d (VkEd25519 k).

(** a RSA key of less than [bits] *)
Definition shorter_than (bits : N) (k : VerifyingKey C) : Prop :=
  exists pk, k = VkRsa pk /\ rsa_size C pk * 8 < bits.

Definition verifies (k : VerifyingKey C) (a : HashAlg) (digest sig : list byte) : Prop :=
  match k with
  | VkRsa pk => rsa_verify C pk a digest sig = true
  | VkEd25519 pk => ed_verify C pk digest sig = true
  end.

(** the key type an algorithm requires *)
Definition key_type_for (a : SigningAlg) : KeyType :=
  match a with RsaSha256 | RsaSha1 => Rsa | Ed25519Sha256 => Ed25519 end.

(** what the signature is made of: the digest over the signed header fields and
    the signature's own field, without the value of b= (C36) *)
Definition signed_digest (headers : list HeaderField) (sig : DkimSig) (name value : str) : list byte :=
  hash_fn C (alg_hash (s_algorithm sig))
    (header_hash_input (c_header (s_canonicalization sig)) headers (s_signed_headers sig)
     ++ canonical_field (c_header (s_canonicalization sig)) (name, as_bytes (make_original_dkim_sig value))).

Definition key_checks (headers : list HeaderField) (config : Config) (sig : DkimSig) (name value : str)
    (r : KeyRecord) : list (Prop * VerificationError) :=
  let kt := key_type_for (s_algorithm sig) in
  let key := key_in kt (k_key_data r) in
  [(k_key_type r <> kt, WrongKeyType);
   (k_key_data r = [], KeyRevoked);
   (~ In (alg_hash (s_algorithm sig)) (k_hash_algorithms r), DisallowedHashAlgorithm);
   (In NoSubdomains (k_flags r) /\ exists i, s_identity sig = Some i
      /\ idna_to_ascii idna (id_domain i) <> idna_to_ascii idna (s_domain sig), VDomainMismatch);
   (forall k, ~ key k, VerificationFailure InvalidKey);
   (exists k, key k /\ shorter_than (if env_pre E then 512 else 1024) k, VerificationFailure InsufficientKeySize);
   (exists k, key k /\ shorter_than (cf_min_key_bits config) k, Policy KeyTooSmall);
   (exists k, key k /\ ~ verifies k (alg_hash (s_algorithm sig)) (signed_digest headers sig name value)
                           (s_signature_data sig), VerificationFailure CryptoVerificationFailure)].

(** trying one record: the parsed record, if any, and what is wrong, if anything *)
Inductive record_outcome (headers : list HeaderField) (config : Config) (sig : DkimSig) (name value : str)
    (txt : IoResult (list byte)) : option KeyRecord -> option VerificationError -> Prop :=
| ro_not_text : record_text txt None ->
    record_outcome headers config sig name value txt None (Some (KeyRecordFormat RecordFormat))
| ro_format : forall s e, record_text txt (Some s) -> record_from_str (env_pre E) s = Val (Err e) ->
    record_outcome headers config sig name value txt None (Some (KeyRecordFormat e))
| ro_record : forall s r e, record_text txt (Some s) -> record_from_str (env_pre E) s = Val (Ok r) ->
    first_of (key_checks headers config sig name value r) e ->
    record_outcome headers config sig name value txt (Some r) e.

(** the record confirms the signature *)
Definition record_accepts (headers : list HeaderField) (config : Config) (sig : DkimSig) (name value : str)
    (txt : IoResult (list byte)) (r : KeyRecord) : Prop :=
  exists s key,
    record_text txt (Some s) /\ record_from_str (env_pre E) s = Val (Ok r)
    /\ k_key_type r = key_type_for (s_algorithm sig)
    /\ k_key_data r <> []
    /\ In (alg_hash (s_algorithm sig)) (k_hash_algorithms r)
    /\ (In NoSubdomains (k_flags r) -> forall i, s_identity sig = Some i ->
          idna_to_ascii idna (id_domain i) = idna_to_ascii idna (s_domain sig))
    /\ key_in (k_key_type r) (k_key_data r) key
    /\ (forall pk, key = VkRsa pk ->
          N.max (if env_pre E then 512 else 1024) (cf_min_key_bits config) <= rsa_size C pk * 8)
    /\ verifies key (alg_hash (s_algorithm sig)) (signed_digest headers sig name value) (s_signature_data sig).

(** trying records until one succeeds; else the last failure stands *)
Inductive records_outcome (headers : list HeaderField) (config : Config) (sig : DkimSig) (name value : str)
    : list (IoResult (list byte)) -> option KeyRecord -> option VerificationError -> Prop :=
| rs_success : forall txt more r, record_outcome headers config sig name value txt (Some r) None ->
    records_outcome headers config sig name value (txt :: more) (Some r) None
| rs_last : forall txt r e, record_outcome headers config sig name value txt r (Some e) ->
    records_outcome headers config sig name value [txt] r (Some e)
| rs_more : forall txt more r e r' e', more <> [] ->
    record_outcome headers config sig name value txt r (Some e) ->
    records_outcome headers config sig name value more r' e' ->
    records_outcome headers config sig name value (txt :: more) r' e'.

(** ** Lookups *)

Inductive lookup_error : IoErrorKind -> VerificationError -> Prop :=
| le_not_found : lookup_error NotFound NoKeyFound
| le_input : lookup_error InvalidInput InvalidKeyDomain
| le_timeout : lookup_error TimedOut VTimeout
| le_other : forall k, k <> NotFound -> k <> InvalidInput -> k <> TimedOut -> lookup_error k KeyLookup.

(** the domain and selector in ASCII form *)
Definition lookup_pair (sig : DkimSig) (p : str * str) : Prop :=
  idna_to_ascii idna (s_domain sig) = Some (fst p) /\ idna_to_ascii idna (s_selector sig) = Some (snd p).

(** where its key record is published *)
Definition key_name (p : str * str) : str := snd p ++ lit "._domainkey." ++ fst p ++ [46].

(** ** Results *)

(** the comparison of body hashes *)
Definition body_status (config : Config) (sig : DkimSig) (body : list byte) : VerificationStatus :=
  match expected_result (hash_fn C) (cf_forbid_unsigned_content config)
          (s_body_length sig, alg_hash (s_algorithm sig), c_body (s_canonicalization sig)) body with
  | Ok (h, _) => if leqb h (s_body_hash sig) then Success else Failure BodyHashMismatch
  | Err InsufficientInput => Failure VInsufficientContent
  | Err InputTruncated => Failure (Policy UnsignedContent)
  end.

(** the body hashes to the value in the signature *)
Definition body_matches (config : Config) (sig : DkimSig) (body : list byte) : Prop :=
  let cb := canonical_body (c_body (s_canonicalization sig)) body in
  let hashes_to b := hash_fn C (alg_hash (s_algorithm sig)) b = s_body_hash sig in
  match s_body_length sig with
  | None => hashes_to cb
  | Some l => exists covered rest, cb = covered ++ rest /\ N.of_nat (length covered) = l /\ hashes_to covered
                /\ (cf_forbid_unsigned_content config = true -> rest = [])
  end.

(** a header value read as a signature *)
Inductive signature_read (value : list byte) : str -> result DkimSig SigError -> Prop :=
| sgr_text : forall s r, Forall is_scalar s -> value = as_bytes s ->
    sig_from_str (env_pre E) idna s = Val r -> signature_read value s r
| sgr_not_utf8 : (forall s, Forall is_scalar s -> value <> as_bytes s) ->
    signature_read value [] (Err (mkSigError EUtf8Encoding None None None None None)).

(** the signature is good as far as can be seen without a key *)
Definition in_progress (headers : list HeaderField) (config : Config) (now : N) (value : list byte)
    (s : str) (sig : DkimSig) : Prop :=
  signature_read value s (Ok sig) /\ first_of (signature_checks headers config now sig) None.

(** The result for the signature in field [name: value] at position [i], when
    [answer] is the response of DNS for a pair of domain and selector. *)
Inductive verdict (answer : str * str -> IoResult (list (IoResult (list byte)))) (headers : list HeaderField)
    (config : Config) (now : N) (body : list byte) (i : nat) (name : str) (value : list byte)
    : VerificationResult -> Prop :=
| vd_format : forall s e, signature_read value s (Err e) ->
    verdict answer headers config now body i name value
      (mkVResult (Failure (DkimSignatureFormat e)) i None None)
| vd_check : forall s sig e, signature_read value s (Ok sig) ->
    first_of (signature_checks headers config now sig) (Some e) ->
    verdict answer headers config now body i name value (mkVResult (Failure e) i (Some sig) None)
| vd_lookup : forall s sig p k e, in_progress headers config now value s sig -> lookup_pair sig p ->
    answer p = Err k -> lookup_error k e ->
    verdict answer headers config now body i name value (mkVResult (Failure e) i (Some sig) None)
| vd_no_key : forall s sig p, in_progress headers config now value s sig -> lookup_pair sig p ->
    answer p = Ok [] ->
    verdict answer headers config now body i name value (mkVResult (Failure NoKeyFound) i (Some sig) None)
| vd_key : forall s sig p txts r e, in_progress headers config now value s sig -> lookup_pair sig p ->
    answer p = Ok txts -> records_outcome headers config sig name s (consulted txts) r (Some e) ->
    verdict answer headers config now body i name value (mkVResult (Failure e) i (Some sig) r)
| vd_body : forall s sig p txts r, in_progress headers config now value s sig -> lookup_pair sig p ->
    answer p = Ok txts -> records_outcome headers config sig name s (consulted txts) r None ->
    verdict answer headers config now body i name value
      (mkVResult (body_status config sig body) i (Some sig) r).

(** ** Classes of results (RFC 8601 section 2.7.1) *)

(** RFC 6376 section 3.9 and 6.1: a tag is missing or contradicts another *)
Definition incomplete_signature (k : SigErrorKind) : Prop :=
  In k [EHistoricAlgorithm; EEmptySignatureTag; EEmptyBodyHashTag; EEmptySignedHeadersTag; EFromHeaderNotSigned;
        EMissingVersionTag; EMissingAlgorithmTag; EMissingSignatureTag; EMissingBodyHashTag; EMissingDomainTag;
        EMissingSignedHeadersTag; EMissingSelectorTag; EDomainMismatch; EExpirationNotAfterTimestamp].

Inductive result_class : VerificationStatus -> DkimResult -> Prop :=
| rc_pass : result_class Success RPass
| rc_fail_signature : result_class (Failure (VerificationFailure CryptoVerificationFailure)) RFail
| rc_fail_body : result_class (Failure BodyHashMismatch) RFail
| rc_policy : forall p, result_class (Failure (Policy p)) RPolicy
| rc_temporary : forall e, In e [VTimeout; KeyLookup] -> result_class (Failure e) RTemperror
| rc_permanent : forall e, In e [NoKeyFound; InvalidKeyDomain; WrongKeyType; KeyRevoked; DisallowedHashAlgorithm;
    VDomainMismatch; VInsufficientContent; VerificationFailure InvalidKey; VerificationFailure InsufficientKeySize;
    KeyRecordFormat MisplacedVersionTag; KeyRecordFormat MissingKeyTag] -> result_class (Failure e) RPermerror
| rc_permanent_signature : forall e, incomplete_signature (se_kind e) ->
    result_class (Failure (DkimSignatureFormat e)) RPermerror
| rc_neutral_signature : forall e, ~ incomplete_signature (se_kind e) ->
    result_class (Failure (DkimSignatureFormat e)) RNeutral
| rc_neutral_record : forall e, e <> MisplacedVersionTag -> e <> MissingKeyTag ->
    result_class (Failure (KeyRecordFormat e)) RNeutral
| rc_neutral_length : result_class (Failure VOverflow) RNeutral.

(** ** Lookups made *)

(** [qs]: the pairs looked up, in order; starting at time [t] *)
Fixpoint lookup_log (r : Resolver) (n : nat) (t : N) (qs : list (str * str)) : list ((str * str) * str * N) :=
  match qs with
  | [] => []
  | q :: qs' => (q, key_name q, t) :: lookup_log r (S n) (t + rs_latency r n (key_name q)) qs'
  end.

(** when the last of them ends: each begins when the one before has ended *)
Fixpoint lookups_end (r : Resolver) (n : nat) (t : N) (qs : list (str * str)) : N :=
  match qs with
  | [] => t
  | q :: qs' => lookups_end r (S n) (t + rs_latency r n (key_name q)) qs'
  end.

(** the pairs of the signatures still in progress *)
Definition pair_needed (headers : list HeaderField) (config : Config) (clock : nat -> N) (p : str * str) : Prop :=
  exists i name value s sig, In (i, (name, value)) (examined config headers)
    /\ in_progress headers config (clock i) value s sig /\ lookup_pair sig p.

(** the answer to the lookup of a pair *)
Definition answered (r : Resolver) (qs : list (str * str))
    (answer : str * str -> IoResult (list (IoResult (list byte)))) : Prop :=
  forall n p, nth_error qs n = Some p -> answer p = rs_answer r n (key_name p).

(** hash maps iterate in some order *)
Definition world_ok (w : World) : Prop :=
  (forall l, Permutation (w_query_order w l) l) /\ (forall l, Permutation (w_hasher_order w l) l).

(** A verification with results [rs], where [answer] tells what the resolver
    answered. *)
Definition evaluation (w : World) (headers : list HeaderField) (config : Config) (chunks : list (list byte))
    (answer : str * str -> IoResult (list (IoResult (list byte)))) (rs : list VerificationResult) : Prop :=
  world_ok w /\ header_fields headers
  /\ verify_message E w headers config chunks = Val (Some rs)
  /\ exists v qs t, verify_header E w headers config = Val (Some (v, lookup_log (w_resolver w) 0 0 qs, t))
       /\ answered (w_resolver w) qs answer.

(** [r] is the result for the field [name: value] at position [i] *)
Definition result_for (config : Config) (headers : list HeaderField) (rs : list VerificationResult)
    (i : nat) (name : str) (value : list byte) (r : VerificationResult) : Prop :=
  exists k, nth_error (examined config headers) k = Some (i, (name, value)) /\ nth_error rs k = Some r.

(** A resolver that answers the same whenever asked the same. *)
Definition steady (r : Resolver) (zone : str -> IoResult (list (IoResult (list byte)))) : Prop :=
  forall n name, rs_answer r n name = zone name.

End WithEnv.
