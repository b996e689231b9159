(** Specification of signing: which requests are acceptable, and what signing
    yields for each. *)

From Coq Require Import String List Permutation.
From Verif Require Import Base Utf8 Canon BodyHash Domain Signature Crypto Format Sign
  SpecText SpecCanon SpecHash SpecHeader SpecTag SpecDomain SpecSig SpecFormat.

(** ** Checks *)

(** the first problem in a list of conditions, if any *)
Inductive first_of {A} : list (Prop * A) -> option A -> Prop :=
| fo_none : first_of [] None
| fo_here : forall (P : Prop) a l, P -> first_of ((P, a) :: l) (Some a)
| fo_next : forall (P : Prop) a l r, ~ P -> first_of l r -> first_of ((P, a) :: l) r.

(** [l'] are the elements of [l] that satisfy [P], in order *)
Inductive selected {A} (P : A -> Prop) : list A -> list A -> Prop :=
| sel_nil : selected P [] []
| sel_keep : forall x l l', P x -> selected P l l' -> selected P (x :: l) (x :: l')
| sel_drop : forall x l l', ~ P x -> selected P l l' -> selected P (x :: l) l'.

(** tags that the signer may write itself *)
Definition written_tags : list str :=
  map lit ["v"; "a"; "b"; "bh"; "c"; "d"; "h"; "i"; "l"; "s"; "t"; "x"; "z"]%string.

(** the header fields signed by default *)
Definition signed_by_default : list str :=
  map lit ["from"; "reply-to"; "subject"; "date"; "to"; "cc"; "resent-date"; "resent-from";
           "resent-to"; "resent-cc"; "in-reply-to"; "references"; "list-id"; "list-help";
           "list-unsubscribe"; "list-subscribe"; "list-post"; "list-owner"; "list-archive"]%string.

Definition header_fields (headers : list HeaderField) : Prop :=
  Forall (fun f => field_name (fst f) /\ field_body (snd f) /\ Forall is_byte (snd f)) headers.

Section WithEnv.
Variable E : Env.
Notation C := (env_crypto E).
Notation idna := (env_idna E).

(** The primitives yield bytes. *)
Definition crypto_typed : Prop :=
  (forall a d, Forall is_byte (hash_fn C a d))
  /\ (forall a k d s, rsa_sign C a k d = Some s -> Forall is_byte s)
  /\ (forall k d, Forall is_byte (ed_sign C k d)).

(** Invariants of the types of a request's parts. *)
Definition request_typed (r : SignRequest E) : Prop :=
  domain_text idna (r_domain E r) true
  /\ domain_text idna (r_selector E r) false
  /\ (forall i, r_identity E r = Some i -> domain_text idna (id_domain i) true
        /\ forall l, id_local_part i = Some l -> Forall is_scalar l)
  /\ (forall names, r_header_selection E r = Manual names -> Forall field_name names)
  /\ match of_tag_order (r_format E r) with
     | Some sort => forall names, Permutation (sort names) names
     | None => True
     end.

(** what may be wrong with a request, in the order of checking *)
Definition request_checks (r : SignRequest E) : list (Prop * RequestError) :=
  [(match r_signing_key E r, r_algorithm E r with
    | SkRsa _, (RsaSha256 | RsaSha1) | SkEd25519 _, Ed25519Sha256 => False
    | _, _ => True
    end, IncompatibleKeyType);
   (exists names, r_header_selection E r = Manual names
      /\ forall n, In n names -> ~ same_name n (lit "From"), FromHeaderNotSigned);
   (exists names n, r_header_selection E r = Manual names /\ In n names /\ In 59 n,
    InvalidSignedFieldName);
   (exists i, r_identity E r = Some i
      /\ lower (id_domain i) <> lower (r_domain E r)
      /\ ~ ascii_subdomain idna (id_domain i) (r_domain E r), ReqDomainMismatch);
   (r_valid_duration E r = Some 0, ZeroExpirationDuration);
   (~ (NoDup (map fst (r_ext_tags E r))
       /\ forall n v, In (n, v) (r_ext_tags E r) ->
            tag_name_text n /\ (v = [] \/ tag_value_text v) /\ ~ In n written_tags), InvalidExtTags);
   (lower (of_header_name (r_format E r)) <> lit "dkim-signature", InvalidDkimSignatureHeaderName);
   (~ (wsps (of_indentation (r_format E r)) /\ of_indentation (r_format E r) <> []),
    InvalidIndentationWhitespace);
   (exists n, r_body_length E r = ExactLen n /\ env_usize_max E < n, ReqOverflow)].

(** at most [room] requests *)
Fixpoint requests_checks (room : nat) (rs : list (SignRequest E)) : list (Prop * RequestError) :=
  match rs with
  | [] => []
  | r :: rs' => (room = O, TooManyRequests) :: request_checks r ++ requests_checks (room - 1) rs'
  end.

Definition signing_checks (headers : list HeaderField) (rs : list (SignRequest E))
    : list (Prop * RequestError) :=
  [(forall f, In f headers -> ~ same_name (fst f) (lit "From"), MissingFromHeader)]
  ++ requests_checks 10 rs
  ++ [(rs = [], EmptyRequests)].

(** ** Results *)

(** the part of the canonical body to be hashed, and the value of the l= tag *)
Inductive signed_body (r : SignRequest E) (body : list byte) : list byte -> option N -> Prop :=
| sb_all : r_body_length E r = NoLimit ->
    signed_body r body (canonical_body (c_body (r_canonicalization E r)) body) None
| sb_content : let cb := canonical_body (c_body (r_canonicalization E r)) body in
    r_body_length E r = MessageContent ->
    signed_body r body cb (Some (N.of_nat (length cb)))
| sb_exact : forall n a b, r_body_length E r = ExactLen n -> N.of_nat (length a) = n ->
    canonical_body (c_body (r_canonicalization E r)) body = a ++ b ->
    signed_body r body a (Some n).

(** the header fields signed *)
Inductive signed_names (r : SignRequest E) (headers : list HeaderField) : list FieldName -> Prop :=
| sn_auto : forall fs, r_header_selection E r = Auto ->
    selected (fun f => In (lower (fst f)) signed_by_default) headers fs ->
    signed_names r headers (rev (map fst fs))
| sn_manual : forall names, r_header_selection E r = Manual names -> signed_names r headers names.

Definition copied_headers (r : SignRequest E) (headers : list HeaderField) (names : list FieldName)
    (copied : list HeaderField) : Prop :=
  if r_copy_headers E r
  then selected (fun f => exists n, In n names /\ same_name (fst f) n) headers copied
  else copied = [].

Definition time_of (r : SignRequest E) (now : N) : option N :=
  match r_timestamp E r with TsNone => None | TsNow => Some now | TsExact t => Some t end.

(** the signature to be made *)
Definition to_sign (now : N) (r : SignRequest E) (headers : list HeaderField) (body : list byte)
    (u : USig) : Prop :=
  exists hashed l names copied,
    signed_body r body hashed l
    /\ signed_names r headers names
    /\ copied_headers r headers names copied
    /\ u = mkUSig (r_algorithm E r) (hash_fn C (alg_hash (r_algorithm E r)) hashed)
             (r_canonicalization E r) (r_domain E r) names (r_identity E r) l (r_selector E r)
             (time_of r now)
             (match r_valid_duration E r with
              | Some d => Some (N.min (match time_of r now with Some t => t | None => now end + d) (2^64 - 1))
              | None => None
              end)
             copied (r_ext_tags E r).

(** what is signed when the header value is [pre ++ post] *)
Definition header_digest (u : USig) (headers : list HeaderField) (name value : str) : list byte :=
  hash_fn C (alg_hash (u_algorithm u))
    (header_hash_input (c_header (u_canonicalization u)) headers (u_signed_headers u)
     ++ canonical_field (c_header (u_canonicalization u)) (name, as_bytes value)).

(** room for a base64 text of the signature *)
Definition b64_length (k : SigningKey C) : nat :=
  let n := match k with SkRsa k => rsa_sig_len C k | SkEd25519 _ => 64%nat end in
  ((n + 2) / 3 * 4)%nat.

Definition primitive_sign (k : SigningKey C) (a : SigningAlg) (digest : list byte) : option (list byte) :=
  match k with
  | SkRsa k => rsa_sign C (alg_hash a) k digest
  | SkEd25519 k => Some (ed_sign C k digest)
  end.

(** the result of signing *)
Inductive signing_result (now : N) (r : SignRequest E) (headers : list HeaderField) (body : list byte)
    : result SigningOutput SigningError -> Prop :=
| sr_insufficient : forall n, r_body_length E r = ExactLen n ->
    N.of_nat (length (canonical_body (c_body (r_canonicalization E r)) body)) < n ->
    signing_result now r headers body (Err InsufficientContent)
| sr_overflow : forall hashed l, signed_body r body hashed (Some l) -> 2^64 <= l ->
    signing_result now r headers body (Err SigOverflow)
| sr_failure : forall u pre post,
    to_sign now r headers body u -> (forall l, u_body_length u = Some l -> l < 2^64) ->
    value_parts idna u (r_format E r) (b64_length (r_signing_key E r)) pre post ->
    primitive_sign (r_signing_key E r) (r_algorithm E r)
      (header_digest u headers (of_header_name (r_format E r)) (pre ++ post)) = None ->
    signing_result now r headers body (Err SigningFailure)
| sr_ok : forall u pre post sig n b64,
    to_sign now r headers body u -> (forall l, u_body_length u = Some l -> l < 2^64) ->
    value_parts idna u (r_format E r) (b64_length (r_signing_key E r)) pre post ->
    primitive_sign (r_signing_key E r) (r_algorithm E r)
      (header_digest u headers (of_header_name (r_format E r)) (pre ++ post)) = Some sig ->
    base64 sig b64 -> column (of_header_name (r_format E r)) pre n ->
    signing_result now r headers body
      (Ok (mkOutput (of_header_name (r_format E r))
             (pre ++ fst (layout (of_line_width (r_format E r)) (of_indentation (r_format E r)) n
                            (letters b64)) ++ post)
             (mkSig (u_algorithm u) sig (u_body_hash u) (u_canonicalization u) (u_domain u)
                (u_signed_headers u) (u_identity u) (u_body_length u) (u_selector u) (u_timestamp u)
                (u_expiration u) (u_copied_headers u) (u_ext_tags u)))).

(** a complete run: preparation, the body in chunks, signing *)
Definition sign_message (order : list BodyHasherKey -> list BodyHasherKey) (headers : list HeaderField)
    (rs : list (SignRequest E)) (chunks : list (list byte)) (clock : nat -> N)
    : outcome (result (list (result SigningOutput SigningError)) RequestError) :=
  let! p := prepare_signing E order headers rs in
  match p with
  | Err e => Val (Err e)
  | Ok s =>
      let! s := signer_chunks E s chunks in
      let! results := sign E clock s in
      Val (Ok results)
  end.

End WithEnv.
