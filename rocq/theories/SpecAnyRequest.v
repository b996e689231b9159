(** Specification: what signing with any requests gives, and what verification then says
    when nothing was changed. *)

From Coq Require Import String List NArith.
From Verif Require Import Base Canon BodyHash Header Domain Signature KeyRecord Crypto Sign Verify Concrete
  SpecCanon SpecHash SpecSign SpecVerify SpecDkim SpecCause SpecRsa SpecEd.
Import ListNotations.
Open Scope N_scope.

Section WithEnv.
Variable E : Env.

(** among the records consulted is one with a key such as [key] says, fit for the request *)
Definition published (zone : str -> IoResult (list (IoResult (list byte)))) (r : SignRequest E) (key : KeyType -> list byte -> Prop) : Prop :=
  exists d s txts txt k,
    idna_to_ascii (env_idna E) (r_domain E r) = Some d /\ idna_to_ascii (env_idna E) (r_selector E r) = Some s
    /\ zone (s ++ lit "._domainkey." ++ d ++ lit ".") = Ok txts /\ In txt (consulted txts)
    /\ record_reads_as E txt k /\ key (k_key_type k) (k_key_data k)
    /\ In (alg_hash (r_algorithm E r)) (k_hash_algorithms k)
    /\ (In NoSubdomains (k_flags k) -> forall i, r_identity E r = Some i ->
          idna_to_ascii (env_idna E) (id_domain i) = idna_to_ascii (env_idna E) (r_domain E r)).

(** What can still be wrong with a message that was not changed, in the order in which it is
    noticed: the verifier's demands on signatures, and on parts of the body not signed. *)
Definition unchanged_checks (headers : list HeaderField) (config : Config) (now : N) (sig : DkimSig) (body : list byte)
    : list (Prop * VerificationError) :=
  signature_checks E headers config now sig
  ++ [(cf_forbid_unsigned_content config = true /\ (exists l, s_body_length sig = Some l
         /\ l < N.of_nat (length (canonical_body (c_body (s_canonicalization sig)) body))), Policy UnsignedContent)].

End WithEnv.

Definition rsa_record (n e : N) (t : KeyType) (data : list byte) : Prop :=
  t = Rsa /\ (rsa_info_der n e data \/ rsa_public_der n e data).
Definition ed_record (public : list byte) (t : KeyType) (data : list byte) : Prop :=
  t = Ed25519 /\ (data = public \/ ed_info_der public data).

(** the modulus is large enough, counted in whole bytes *)
Definition large_enough (pre : bool) (config : Config) (n : N) : Prop :=
  exists bytes, 256 ^ (bytes - 1) <= n /\ N.max (if pre then 512 else 1024) (cf_min_key_bits config) <= 8 * bytes.

(** ** Signing *)

(** a private key as such keys are generated *)
Definition proper_key (k : SigningKey real_crypto) : Prop :=
  match k with
  | SkRsa k => rsa_pair (rk_n (rs_public k)) (rk_e (rs_public k)) (rs_d k)
  | SkEd25519 _ => True
  end.

(** RFC 8017, section 9.2: no room for the encoded hash and at least eight bytes of padding *)
Definition no_room (k : SigningKey real_crypto) (a : HashAlg) : Prop :=
  match k with
  | SkRsa k => rk_n (rs_public k) < 256 ^ (match a with Sha256 => 19 + 32 | Sha1 => 15 + 20 end + 11 - 1)
  | SkEd25519 _ => False
  end.

(** What can be wrong when a message with this body is signed with an accepted request. *)
Definition signing_troubles (E : Env) (key : SigningKey real_crypto) (r : SignRequest E) (body : list byte) : list (Prop * SigningError) :=
  let size := N.of_nat (length (canonical_body (c_body (r_canonicalization E r)) body)) in
  [(exists n, r_body_length E r = ExactLen n /\ size < n, InsufficientContent);
   (match r_body_length E r with NoLimit => False | MessageContent => 2^64 <= size | ExactLen n => 2^64 <= n end, SigOverflow);
   (no_room key (alg_hash (r_algorithm E r)), SigningFailure)].
