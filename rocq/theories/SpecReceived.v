(** Specification: what becomes of a message that was signed in the default way, and
    then received with any changes, at any time. *)

From Coq Require Import String List NArith.
From Verif Require Import Base Canon BodyHash Header Domain Signature KeyRecord Crypto Verify
  SpecCanon SpecHash SpecHeader SpecSign SpecOutput SpecVerify SpecEnd SpecDkim SpecEd SpecTransit SpecAuthor.
Import ListNotations.
Open Scope N_scope.

(** Of each name signed by default, the fields that were there when the message was
    signed are still the lowest, up to spelling of the name and whitespace. *)
Definition default_intact (headers headers' : list HeaderField) : Prop :=
  forall n, In (lower n) signed_by_default ->
    Forall2 (same_field Relaxed) (named n (rev headers)) (lowest (length (named n headers)) n headers').

(** What can be wrong, in the order in which it is noticed.  The message was signed at time
    [signed]; [text]: the header is intact, as far as the signature goes; [same]: the body is. *)
Definition receipt_checks (signed now : N) (headers headers' : list HeaderField) (text same : Prop) : list (Prop * VerificationError) :=
  [((length (named (lit "From") headers) < length (named (lit "From") headers'))%nat, Policy UnsignedHeaderOccurrence);
   (signed + 5 * 24 * 60 * 60 + 300 <= now \/ 2^64 - 1 <= now, Policy SignatureExpired);
   (now + 300 < signed, Policy TimestampInFuture);
   (~ text, VerificationFailure CryptoVerificationFailure);
   (~ same, BodyHashMismatch)].

Definition status_of (e : option VerificationError) : VerificationStatus :=
  match e with None => Success | Some e => Failure e end.

Section WithEnv.
Variable E : Env.

(** there is just one TXT record for the domain and selector *)
Definition sole_record (zone : str -> IoResult (list (IoResult (list byte)))) (domain selector : str) : Prop :=
  forall d s, idna_to_ascii (env_idna E) domain = Some d -> idna_to_ascii (env_idna E) selector = Some s ->
    exists txt, zone (s ++ lit "._domainkey." ++ d ++ lit ".") = Ok [txt].

(** the body is the same, up to lines missing or added at the end, or a collision *)
Definition body_same (body body' : list byte) : Prop :=
  same_body Simple body body' \/ collision E Sha256 (canonical_body Simple body) (canonical_body Simple body').

End WithEnv.

(** Two texts for which the same Ed25519 signature is good: [hash] is SHA-512, [digest]
    the hash that is signed. *)
Definition ed_clash (hash digest : list byte -> list byte) (public signature data data' : list byte) : Prop :=
  data <> data' /\ exists x x',
    little_endian (hash (firstn 32 signature ++ public ++ digest data)) x
    /\ little_endian (hash (firstn 32 signature ++ public ++ digest data')) x'
    /\ x mod ed_order = x' mod ed_order.
