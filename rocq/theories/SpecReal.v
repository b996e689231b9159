(** What makes a DKIM signature valid, with the cryptography of the standards: as
    [valid_dkim] (SpecDkim.v), but with nothing left open except for the hash functions. *)

From Coq Require Import String List NArith.
From Verif Require Import Base Utf8 Canon BodyHash TagList Domain Signature KeyRecord Crypto Verify
  SpecText SpecCanon SpecHash SpecHeader SpecTag SpecDomain SpecSig SpecRecord SpecSign SpecOutput SpecVerify SpecEnd SpecDkim SpecRsa SpecEd.
Import ListNotations.
Open Scope N_scope.

(** the bits of a number, counted in whole bytes *)
Definition bits_in_bytes (n bits : N) : Prop :=
  exists len, 256 ^ len <= n < 256 ^ (len + 1) /\ bits = 8 * (len + 1).

Section Hash.
Variable sha : HashAlg -> list byte -> list byte.
Variable sha512 : list byte -> list byte.

(** the key data of a record is a public key that is long enough and confirms the
    signature of the digest *)
Inductive key_confirms (least : N) (a : HashAlg) (digest sig : list byte) : KeyType -> list byte -> Prop :=
| by_rsa : forall n e bits data,
    rsa_info_der n e data \/ rsa_public_der n e data -> rsa_accepted n e ->
    bits_in_bytes n bits -> least <= bits ->
    rsa_valid a n e digest sig -> key_confirms least a digest sig Rsa data
| by_ed25519 : forall public data,
    data = public \/ ed_info_der public data -> ed_valid sha512 public digest sig ->
    key_confirms least a digest sig Ed25519 data.

Section WithEnv.
Variable E : Env.
Notation idna := (env_idna E).
Variable canonical : CanonAlg -> list byte -> list byte.

Definition body_hashed_by (sig : DkimSig) (body rest : list byte) : Prop :=
  exists covered, canonical (c_body (s_canonicalization sig)) body = covered ++ rest
    /\ sha (alg_hash (s_algorithm sig)) covered = s_body_hash sig
    /\ match s_body_length sig with
       | Some l => N.of_nat (length covered) = l
       | None => rest = []
       end.

(** The field [name: value] is a valid signature [sig] of the message, confirmed by key
    record [k], and admitted by [config]. *)
Definition valid_signature (zone : str -> IoResult (list (IoResult (list byte)))) (config : Config) (now : N)
    (headers : list HeaderField) (body : list byte) (name : str) (value : list byte) (sig : DkimSig) (k : KeyRecord) : Prop :=
  exists s tags r rtags data rest,
    Forall is_scalar s /\ value = as_bytes s /\ tags_of s tags /\ signature_of (env_pre E) idna tags sig
    /\ signature_good E headers config now sig
    /\ published E zone sig (as_bytes r) /\ Forall is_scalar r /\ tags_of r rtags /\ record_of (env_pre E) rtags k
    /\ k_key_type k = key_type_for (s_algorithm sig)
    /\ In (alg_hash (s_algorithm sig)) (k_hash_algorithms k)
    /\ (In NoSubdomains (k_flags k) -> forall i, s_identity sig = Some i ->
          idna_to_ascii idna (id_domain i) = idna_to_ascii idna (s_domain sig))
    /\ signed_data headers sig name s tags data
    /\ key_confirms (N.max (if env_pre E then 512 else 1024) (cf_min_key_bits config)) (alg_hash (s_algorithm sig))
         (sha (alg_hash (s_algorithm sig)) data) (s_signature_data sig) (k_key_type k) (k_key_data k)
    /\ body_hashed_by sig body rest /\ (cf_forbid_unsigned_content config = true -> rest = []).

End WithEnv.
End Hash.
