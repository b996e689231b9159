(** Specification: what the feature for old signatures, and the width of lengths, change. *)

From Coq Require Import List NArith.
From Verif Require Import Base BodyHash Domain Signature KeyRecord Crypto Sign Verify SpecVerify.
Import ListNotations.
Open Scope N_scope.

Section WithCrypto.
Variables (idna : Idna) (C : Crypto).

(** The library with or without the feature [pre-rfc8301], on a platform where a length in
    memory is at most [m]. *)
Definition build (pre : bool) (m : N) : Env := mkEnv pre m idna C.

(** a result is that the length of the signature is not supported *)
Definition length_refused (m : N) (r : VerificationResult) : Prop :=
  exists sig l, vr_signature r = Some sig /\ s_body_length sig = Some l /\ m < l
    /\ vr_status r = Failure VOverflow /\ vr_key_record r = None.

(** the RSA key in a record, if any, has 1024 bits at least *)
Definition key_of_1024 (k : KeyRecord) : Prop :=
  forall pre m pk, key_in (build pre m) (k_key_type k) (k_key_data k) (VkRsa (C := C) pk) -> 1024 <= rsa_size C pk * 8.

(** the same key record, but for the hash algorithms that are of use *)
Definition same_record (k k' : KeyRecord) : Prop :=
  k_key_type k = k_key_type k' /\ k_notes k = k_notes k' /\ k_key_data k = k_key_data k'
  /\ k_service_types k = k_service_types k' /\ k_flags k = k_flags k' /\ k_ext_tags k = k_ext_tags k'
  /\ (In Sha256 (k_hash_algorithms k) <-> In Sha256 (k_hash_algorithms k')).

(** the same request, in another build *)
Definition moved (pre : bool) (m : N) (pre' : bool) (m' : N) (r : SignRequest (build pre m)) : SignRequest (build pre' m') :=
  let E := build pre m in
  mkRequest (build pre' m') (r_signing_key E r) (r_algorithm E r) (r_canonicalization E r) (r_domain E r) (r_header_selection E r)
    (r_identity E r) (r_body_length E r) (r_selector E r) (r_timestamp E r) (r_valid_duration E r) (r_copy_headers E r)
    (r_ext_tags E r) (r_format E r).

End WithCrypto.
