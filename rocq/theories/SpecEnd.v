(** Specification of end-to-end properties: a message is signed, and later verified. *)

From Coq Require Import String List.
From Verif Require Import Base Utf8 Canon BodyHash Domain Signature KeyRecord Crypto Format Sign Verify
  SpecText SpecCanon SpecHash SpecHeader SpecTag SpecDomain SpecSig SpecRecord SpecFormat SpecSign SpecOutput SpecVerify.

(** the header field to be added to the message *)
Definition signature_field (o : SigningOutput) : HeaderField := (so_header_name o, as_bytes (so_header_value o)).

(** Fields [extra] added on top of [headers] are not covered by signed names:
    a name occurs no more often than the header has such fields. *)
Definition not_oversigned (names : list FieldName) (headers extra : list HeaderField) : Prop :=
  forall n f, In n names -> In f extra -> same_name (fst f) n ->
    (occurrences n names <= occurrences n (map fst headers))%nat.

(** text without SP, TAB, CR, LF *)
Definition squeeze (s : str) : str := filter (fun c => negb (white c)) s.

(** Signatures that agree in everything except the signature data itself, and
    whitespace in tags not interpreted. *)
Definition same_tags_of (s1 s2 : DkimSig) : Prop :=
  s_algorithm s1 = s_algorithm s2 /\ s_body_hash s1 = s_body_hash s2
  /\ s_canonicalization s1 = s_canonicalization s2 /\ s_domain s1 = s_domain s2
  /\ s_signed_headers s1 = s_signed_headers s2 /\ s_identity s1 = s_identity s2
  /\ s_body_length s1 = s_body_length s2 /\ s_selector s1 = s_selector s2
  /\ s_timestamp s1 = s_timestamp s2 /\ s_expiration s1 = s_expiration s2
  /\ s_copied_headers s1 = s_copied_headers s2
  /\ map (fun t => (fst t, squeeze (snd t))) (s_ext_tags s1) = map (fun t => (fst t, squeeze (snd t))) (s_ext_tags s2).

Section WithEnv.
Variable E : Env.
Notation C := (env_crypto E).
Notation idna := (env_idna E).

(** the keys belong together: one confirms what is signed with the other *)
Definition keys_match (k : SigningKey C) (key : VerifyingKey C) : Prop :=
  forall a digest sig, primitive_sign E k a digest = Some sig -> verifies E key (alg_hash a) digest sig.

(** a key record fit for the signatures made by a request *)
Definition record_for (r : SignRequest E) (config : Config) (txt : IoResult (list byte)) : Prop :=
  exists s k key,
    record_text txt (Some s) /\ record_from_str (env_pre E) s = Val (Ok k)
    /\ k_key_type k = key_type_for (r_algorithm E r)
    /\ k_key_data k <> []
    /\ In (alg_hash (r_algorithm E r)) (k_hash_algorithms k)
    /\ (In NoSubdomains (k_flags k) -> forall i, r_identity E r = Some i ->
          idna_to_ascii idna (id_domain i) = idna_to_ascii idna (r_domain E r))
    /\ key_in E (k_key_type k) (k_key_data k) key
    /\ (forall pk, key = VkRsa pk ->
          N.max (if env_pre E then 512 else 1024) (cf_min_key_bits config) <= rsa_size C pk * 8)
    /\ keys_match (r_signing_key E r) key.

(** such a record is among those consulted *)
Definition key_published (r : SignRequest E) (config : Config)
    (answer : str * str -> IoResult (list (IoResult (list byte)))) : Prop :=
  exists d s txts txt, idna_to_ascii idna (r_domain E r) = Some d /\ idna_to_ascii idna (r_selector E r) = Some s
    /\ answer (d, s) = Ok txts /\ In txt (consulted txts) /\ record_for r config txt.

(** The request leaves no part of the body unsigned, if that is forbidden. *)
Definition content_covered (r : SignRequest E) (config : Config) (body : list byte) : Prop :=
  cf_forbid_unsigned_content config = true -> forall n, r_body_length E r = ExactLen n ->
    n = N.of_nat (length (canonical_body (c_body (r_canonicalization E r)) body)).

(** A request and what it gave, readable for others. *)
Definition readable_output (headers : list HeaderField) (chunks : list (list byte)) (clock : nat -> N) (j : nat)
    (r : SignRequest E) (o : SigningOutput) : Prop :=
  signed_output E headers chunks clock j r o /\ readable_request E r (clock j) /\ clock j < 2^64
  /\ copied_names_safe (so_signature o) /\ Forall (Forall is_scalar) (map snd (r_ext_tags E r)).

(** the time of verification suits the times in the signature *)
Definition in_time (r : SignRequest E) (signed : N) (config : Config) (now : N) : Prop :=
  let tolerance := cf_time_tolerance config in
  (forall t, time_of E r signed = Some t -> t <= now + tolerance)
  /\ (forall d, r_valid_duration E r = Some d ->
        let from := match time_of E r signed with Some t => t | None => signed end in
        now < N.min (from + d) (2^64 - 1) + tolerance /\ now < 2^64 - 1).

(** ** Tampering *)

(** the fields and the part of the body that a signature covers, in canonical form *)
Definition covered_fields (headers : list HeaderField) (sig : DkimSig) : list (list byte) :=
  map (canonical_field (c_header (s_canonicalization sig))) (contributed headers [] (s_signed_headers sig)).

Definition covered_body (sig : DkimSig) (body : list byte) : list byte :=
  let cb := canonical_body (c_body (s_canonicalization sig)) body in
  match s_body_length sig with
  | Some l => firstn (N.to_nat l) cb
  | None => cb
  end.

(** the text that is hashed and then signed (see [signed_digest]) *)
Definition hashed_header (headers : list HeaderField) (sig : DkimSig) (name value : str) : list byte :=
  concat (map (fun f => f ++ [13; 10]) (covered_fields headers sig))
  ++ canonical_field (c_header (s_canonicalization sig)) (name, as_bytes (make_original_dkim_sig value)).

(** a message signed at some time *)
Record Signing := mkSigning {
  sg_headers : list HeaderField;
  sg_chunks : list (list byte);
  sg_clock : nat -> N;
  sg_index : nat;
  sg_request : SignRequest E;
  sg_output : SigningOutput
}.

Definition was_signed (g : Signing) : Prop :=
  readable_output (sg_headers g) (sg_chunks g) (sg_clock g) (sg_index g) (sg_request g) (sg_output g).

(** the digest handed to the signing primitive *)
Definition digest_of (g : Signing) : list byte :=
  let o := sg_output g in
  hash_fn C (alg_hash (r_algorithm E (sg_request g)))
    (hashed_header (sg_headers g) (so_signature o) (so_header_name o) (so_header_value o)).

(** A message with signature [sig] has the content that was signed. *)
Definition same_content (headers : list HeaderField) (sig : DkimSig) (body : list byte) (g : Signing) : Prop :=
  exists sig0, sig_from_str (env_pre E) idna (so_header_value (sg_output g)) = Val (Ok sig0)
    /\ written_signature idna (r_format E (sg_request g)) (so_signature (sg_output g)) sig0
    /\ same_tags_of sig sig0
    /\ covered_fields headers sig = covered_fields (sg_headers g) sig0
    /\ covered_body sig body = covered_body sig0 (concat (sg_chunks g)).

Definition collision (a : HashAlg) (x y : list byte) : Prop := x <> y /\ hash_fn C a x = hash_fn C a y.

(** Two different texts with the same digest, one of them from the signing [g],
    the other from a message with signature [sig] in field [name: value]. *)
Definition collision_with (headers : list HeaderField) (sig : DkimSig) (name value : str) (body : list byte)
    (g : Signing) : Prop :=
  let o := sg_output g in
  let a := alg_hash (s_algorithm sig) in
  collision a (hashed_header headers sig name value)
    (hashed_header (sg_headers g) (so_signature o) (so_header_name o) (so_header_value o))
  \/ collision a (covered_body sig body) (covered_body (so_signature o) (concat (sg_chunks g))).

(** The key confirms only what has been signed in [signings]: nobody else has
    made signatures with it. *)
Definition genuine (signings : Signing -> Prop) (key : VerifyingKey C) : Prop :=
  forall a digest data, verifies E key a digest data ->
    exists g, signings g /\ was_signed g /\ alg_hash (r_algorithm E (sg_request g)) = a /\ digest_of g = digest.

(** a key published for a pair of domain and selector *)
Definition published_key (answer : str * str -> IoResult (list (IoResult (list byte)))) (p : str * str) (key : VerifyingKey C) : Prop :=
  exists txts txt s k, answer p = Ok txts /\ In txt txts /\ record_text txt (Some s)
    /\ record_from_str (env_pre E) s = Val (Ok k) /\ key_in E (k_key_type k) (k_key_data k) key.

End WithEnv.
