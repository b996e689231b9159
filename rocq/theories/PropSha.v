(** Property C81: the hash functions are those of FIPS 180-4; with this, success is the
    validity of the signature, and nothing of the cryptography is left open. *)

From Coq Require Import String List.
From Verif Require Import Base Utf8 Canon BodyHash Header TagList Domain Signature KeyRecord Crypto Format Sign Verify
  SpecText SpecCanon SpecHash SpecHeader SpecTag SpecDomain SpecSig SpecRecord SpecFormat SpecSign SpecOutput SpecVerify SpecEnd SpecDkim SpecCause SpecRsa SpecEd SpecReal SpecSha
  Concrete ConcreteProofs RsaProofs RealProofs ShaRunProofs ShaEndProofs Lib Sample SampleRsa PropDomain PropSign PropOutput PropVerify PropEnd PropDkim PropPrograms PropRsa PropReal.
Import ListNotations.
Open Scope N_scope.

(** ** C81 *)

(** For each hash algorithm, the digest is the one of the standard, and the standard
    gives no other. *)
Theorem C81_sha256 : forall msg d, Forall is_byte msg ->
  (Forall is_byte d /\ sha256_digest (bits_of msg) (bits_of d) <-> d = hash_fn real_crypto Sha256 msg).
Proof. exact sha256_spec. Qed.
Print Assumptions C81_sha256.

Theorem C81_sha1 : forall msg d, Forall is_byte msg ->
  (Forall is_byte d /\ sha1_digest (bits_of msg) (bits_of d) <-> d = hash_fn real_crypto Sha1 msg).
Proof. exact sha1_spec. Qed.
Print Assumptions C81_sha1.

Theorem C81_sha512 : forall msg d, Forall is_byte msg ->
  (Forall is_byte d /\ sha512_digest (bits_of msg) (bits_of d) <-> d = sha512 msg).
Proof. exact sha512_spec. Qed.
Print Assumptions C81_sha512.

(** Signing with Ed25519 produces the signature of RFC 8032. *)
Theorem C81_ed_sign : forall s512 key msg sig, computes sha512_digest s512 -> Forall is_byte key -> Forall is_byte msg ->
  (ed_sign real_crypto key msg = sig <-> ed_signature s512 key msg sig).
Proof. intros s512 key msg sig H. exact (any_signature s512 H key msg sig). Qed.
Print Assumptions C81_ed_sign.

(** A result is success exactly if the signature is valid: [sha] and [s512] are whatever
    functions compute the hashes of the standard. *)
Theorem C81_success : forall sha s512, computes sha256_digest (sha Sha256) -> computes sha1_digest (sha Sha1) -> computes sha512_digest s512 ->
  forall pre m idna w headers config chunks zone rs i name value r,
  let E := real_env pre m idna in
  world_ok w -> steady (w_resolver w) zone -> header_fields headers -> Forall is_byte (concat chunks) ->
  verify_message E w headers config chunks = Val (Some rs) -> result_for config headers rs i name value r ->
  let valid := valid_signature sha s512 E canonical_body zone config (w_clock w i) headers (concat chunks) name value in
  (vr_status r = Success <-> exists sig k, valid sig k)
  /\ (vr_status r = Success -> exists sig k, vr_signature r = Some sig /\ vr_key_record r = Some k /\ valid sig k)
  /\ (forall sig k, valid sig k -> vr_signature r = Some sig).
Proof. exact any_success. Qed.
Print Assumptions C81_success.

(** With the canonical form of the RFC, for bodies other than the two corner cases. *)
Theorem C81_rfc : forall sha s512, computes sha256_digest (sha Sha256) -> computes sha1_digest (sha Sha1) -> computes sha512_digest s512 ->
  forall pre m idna w headers config chunks zone rs i name value r,
  let E := real_env pre m idna in
  world_ok w -> steady (w_resolver w) zone -> header_fields headers -> Forall is_byte (concat chunks) ->
  verify_message E w headers config chunks = Val (Some rs) -> result_for config headers rs i name value r ->
  let valid := valid_signature sha s512 E rfc_body zone config (w_clock w i) headers (concat chunks) name value in
  (forall sig, vr_signature r = Some sig -> regular_body (c_body (s_canonicalization sig)) (concat chunks)) ->
  (vr_status r = Success <-> exists sig k, valid sig k)
  /\ (vr_status r = Success -> exists sig k, vr_signature r = Some sig /\ vr_key_record r = Some k /\ valid sig k).
Proof. exact any_success_rfc. Qed.
Print Assumptions C81_rfc.

(** ** Examples *)

(** there are such functions *)
Example C81_computes : computes sha256_digest (hash_fn real_crypto Sha256) /\ computes sha1_digest (hash_fn real_crypto Sha1) /\ computes sha512_digest sha512.
Proof.
  split; [|split]; intros msg F; [apply (C81_sha256 msg)|apply (C81_sha1 msg)|apply (C81_sha512 msg)]; try exact F; reflexivity.
Qed.

(** the digests of "abc" in FIPS 180-4, and that of no bytes *)
Example C81_abc :
  sha1_digest (bits_of (lit "abc"))
    (word_of 160 0xa9993e364706816aba3e25717850c26c9cd0d89d)
  /\ sha256_digest (bits_of (lit "abc"))
    (word_of 256 0xba7816bf8f01cfea414140de5dae2223b00361a396177a9cb410ff61f20015ad)
  /\ sha512_digest (bits_of (lit "abc"))
    (word_of 512 0xddaf35a193617abacc417349ae20413112e6fa4e89a97ea20a9eeee64b55d39a2192992a274fc1a836ba3c23a3feebbd454d4423643ce80e2a9ac94fa54ca49f)
  /\ sha256_digest [] (word_of 256 0xe3b0c44298fc1c149afbf4c8996fb92427ae41e4649b934ca495991b7852b855).
Proof.
  repeat split.
  - apply sha1_bits; [repeat constructor|vm_compute; reflexivity].
  - apply sha256_bits; [repeat constructor|vm_compute; reflexivity].
  - apply sha512_bits; [repeat constructor|vm_compute; reflexivity].
  - apply (sha256_bits []); [constructor|vm_compute; reflexivity].
Qed.

(** the hypotheses of C81_success, and a signature that is valid *)
Example C81_example : exists o rs r sig k, let headers := signature_field o :: sample_headers in
  header_fields headers /\ Forall is_byte (concat output_chunks)
  /\ verify_message rsa_env short_world headers default_config output_chunks = Val (Some rs)
  /\ result_for default_config headers rs 0 (so_header_name o) (as_bytes (so_header_value o)) r
  /\ vr_status r = Success
  /\ forall sha s512, computes sha256_digest (sha Sha256) -> computes sha1_digest (sha Sha1) -> computes sha512_digest s512 ->
       valid_signature sha s512 rsa_env canonical_body (sample_zone [short_key_record]) default_config 1003 headers
         (concat output_chunks) (so_header_name o) (as_bytes (so_header_value o)) sig k.
Proof.
  destruct short_verified as (o & rs & r & k & F & V & R & S & K & T & D).
  assert (Forall is_byte (concat output_chunks)) as B by (apply all_bytes; vm_compute; reflexivity).
  destruct (real_success _ _ _ _ _ _ _ _ _ _ _ _ _ (sample_world_ok _ _) (sample_steady _ _) F V R) as (_ & X & _).
  destruct (X S) as (sig & k' & _ & K' & Va). exists o, rs, r, sig, k'. cbv zeta.
  split; [exact F|]. split; [exact B|]. split; [exact V|]. split; [exact R|]. split; [exact S|].
  intros sha s512 H2 H1 H5. apply (any_valid sha s512 H2 H1 H5); [exact canonical_body_bytes|exact F|exact (result_name _ _ _ _ _ _ _ F R)|exact B|exact Va].
Qed.
