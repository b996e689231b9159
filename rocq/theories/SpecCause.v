(** What the verifier reports of each signature, in one definition: success, or the
    reason of failure.  Like SpecDkim.v, this refers to types of the model, but to
    none of its functions. *)

From Coq Require Import String List.
From Verif Require Import Base Utf8 Canon BodyHash TagList Domain Signature KeyRecord Crypto Verify
  SpecText SpecCanon SpecHash SpecHeader SpecTag SpecDomain SpecSig SpecRecord SpecSign SpecOutput SpecVerify SpecDkim.

Section WithEnv.
Variable E : Env.
Notation C := (env_crypto E).
Notation idna := (env_idna E).

(** ** Signatures *)

(** the value of a field is the text [s] of signature [sig] *)
Definition reads_as (value : list byte) (s : str) (tags : list TagSpec) (sig : DkimSig) : Prop :=
  Forall is_scalar s /\ value = as_bytes s /\ tags_of s tags /\ signature_of (env_pre E) idna tags sig.

(** why the value of a field is not a signature; the tags as far as known *)
Inductive unreadable (value : list byte) : SigError -> Prop :=
| ur_bytes : (forall s, Forall is_scalar s -> value <> as_bytes s) ->
    unreadable value (mkSigError EUtf8Encoding None None None None None)
| ur_list : forall s, Forall is_scalar s -> value = as_bytes s -> (forall tags, ~ tags_of s tags) ->
    unreadable value (mkSigError ETagListFormat None None None None None)
| ur_tag : forall s tags k, Forall is_scalar s -> value = as_bytes s -> tags_of s tags ->
    first_error (env_pre E) idna tags k ->
    unreadable value (mkSigError k (get "a" tags) (get "b" tags) (get "d" tags) (get "i" tags) (get "s" tags)).

(** ** Key records *)

(** a response is the text of a key record *)
Definition record_reads_as (txt : IoResult (list byte)) (k : KeyRecord) : Prop :=
  exists s tags, Forall is_scalar s /\ txt = Ok (as_bytes s) /\ tags_of s tags /\ record_of (env_pre E) tags k.

(** why not *)
Inductive record_unreadable : IoResult (list byte) -> KeyRecordError -> Prop :=
| ru_error : forall e, record_unreadable (Err e) RecordFormat
| ru_bytes : forall bs, (forall s, Forall is_scalar s -> bs <> as_bytes s) -> record_unreadable (Ok bs) RecordFormat
| ru_list : forall s, Forall is_scalar s -> (forall tags, ~ tags_of s tags) ->
    record_unreadable (Ok (as_bytes s)) KTagListFormat
| ru_tag : forall s tags e, Forall is_scalar s -> tags_of s tags -> key_first_error (env_pre E) tags e ->
    record_unreadable (Ok (as_bytes s)) e.

(** what may be wrong with a record, or else with the signature when that key is used;
    [data] is what was signed *)
Definition key_record_checks (config : Config) (sig : DkimSig) (data : list byte) (k : KeyRecord)
    : list (Prop * VerificationError) :=
  let a := s_algorithm sig in
  let key := key_in E (key_type_for a) (k_key_data k) in
  [(k_key_type k <> key_type_for a, WrongKeyType);
   (k_key_data k = [], KeyRevoked);
   (~ In (alg_hash a) (k_hash_algorithms k), DisallowedHashAlgorithm);
   (In NoSubdomains (k_flags k) /\ (exists i, s_identity sig = Some i
      /\ idna_to_ascii idna (id_domain i) <> idna_to_ascii idna (s_domain sig)), VDomainMismatch);
   (forall v, ~ key v, VerificationFailure InvalidKey);
   (exists v, key v /\ shorter_than E (if env_pre E then 512 else 1024) v, VerificationFailure InsufficientKeySize);
   (exists v, key v /\ shorter_than E (cf_min_key_bits config) v, Policy KeyTooSmall);
   (exists v, key v /\ ~ verifies E v (alg_hash a) (hash_fn C (alg_hash a) data) (s_signature_data sig),
    VerificationFailure CryptoVerificationFailure)].

(** one record: the error, if any *)
Inductive tried (config : Config) (sig : DkimSig) (data : list byte) (txt : IoResult (list byte))
    : option KeyRecord -> option VerificationError -> Prop :=
| tr_unreadable : forall e, record_unreadable txt e -> tried config sig data txt None (Some (KeyRecordFormat e))
| tr_checked : forall k e, record_reads_as txt k -> first_of (key_record_checks config sig data k) e ->
    tried config sig data txt (Some k) e.

(** the first record without an error counts, else the last record *)
Inductive decided (config : Config) (sig : DkimSig) (data : list byte) (txts : list (IoResult (list byte)))
    (k : option KeyRecord) : option VerificationError -> Prop :=
| dc_confirmed : forall before txt after,
    txts = before ++ txt :: after -> Forall (fun t => exists k' e, tried config sig data t k' (Some e)) before ->
    tried config sig data txt k None -> decided config sig data txts k None
| dc_failed : forall before txt e,
    txts = before ++ [txt] -> Forall (fun t => exists k' e', tried config sig data t k' (Some e')) before ->
    tried config sig data txt k (Some e) -> decided config sig data txts k (Some e).

(** ** Bodies *)

(** what may be wrong with the body *)
Definition body_checks (config : Config) (sig : DkimSig) (body : list byte) : list (Prop * VerificationError) :=
  let cb := canonical_body (c_body (s_canonicalization sig)) body in
  let limit := s_body_length sig in
  [(exists l, limit = Some l /\ N.of_nat (length cb) < l, VInsufficientContent);
   (cf_forbid_unsigned_content config = true /\ (exists l, limit = Some l /\ l < N.of_nat (length cb)), Policy UnsignedContent);
   (exists covered rest, cb = covered ++ rest /\ match limit with Some l => N.of_nat (length covered) = l | None => rest = [] end
      /\ hash_fn C (alg_hash (s_algorithm sig)) covered <> s_body_hash sig, BodyHashMismatch)].

Definition reported (e : option VerificationError) : VerificationStatus :=
  match e with None => Success | Some e => Failure e end.

(** ** Results *)

(** The result for the field [name: value] at position [i]. *)
Inductive dkim_verdict (zone : str -> IoResult (list (IoResult (list byte)))) (headers : list HeaderField)
    (config : Config) (now : N) (body : list byte) (i : nat) (name : str) (value : list byte)
    : VerificationResult -> Prop :=
(* it is not a signature *)
| dv_unreadable : forall e, unreadable value e ->
    dkim_verdict zone headers config now body i name value (mkVResult (Failure (DkimSignatureFormat e)) i None None)
(* it is not acceptable *)
| dv_refused : forall s tags sig e, reads_as value s tags sig ->
    first_of (signature_checks E headers config now sig) (Some e) ->
    dkim_verdict zone headers config now body i name value (mkVResult (Failure e) i (Some sig) None)
(* no key *)
| dv_no_key : forall s tags sig d sl answer e, reads_as value s tags sig ->
    first_of (signature_checks E headers config now sig) None ->
    idna_to_ascii idna (s_domain sig) = Some d -> idna_to_ascii idna (s_selector sig) = Some sl ->
    zone (sl ++ lit "._domainkey." ++ d ++ lit ".") = answer ->
    (answer = Ok [] /\ e = NoKeyFound) \/ (exists k, answer = Err k /\ lookup_error k e) ->
    dkim_verdict zone headers config now body i name value (mkVResult (Failure e) i (Some sig) None)
(* the key records decide, then the body *)
| dv_key : forall s tags sig d sl txts data k e, reads_as value s tags sig ->
    first_of (signature_checks E headers config now sig) None ->
    idna_to_ascii idna (s_domain sig) = Some d -> idna_to_ascii idna (s_selector sig) = Some sl ->
    zone (sl ++ lit "._domainkey." ++ d ++ lit ".") = Ok txts ->
    signed_data headers sig name s tags data -> decided config sig data (consulted txts) k (Some e) ->
    dkim_verdict zone headers config now body i name value (mkVResult (Failure e) i (Some sig) k)
| dv_body : forall s tags sig d sl txts data k e, reads_as value s tags sig ->
    first_of (signature_checks E headers config now sig) None ->
    idna_to_ascii idna (s_domain sig) = Some d -> idna_to_ascii idna (s_selector sig) = Some sl ->
    zone (sl ++ lit "._domainkey." ++ d ++ lit ".") = Ok txts ->
    signed_data headers sig name s tags data -> decided config sig data (consulted txts) k None ->
    first_of (body_checks config sig body) e ->
    dkim_verdict zone headers config now body i name value (mkVResult (reported e) i (Some sig) k).

End WithEnv.
