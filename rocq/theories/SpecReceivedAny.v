(** Specification: what becomes of a message signed in any way, received with any changes
    and verified with any configuration. *)

From Coq Require Import List NArith.
From Verif Require Import Base Canon Signature KeyRecord Crypto Verify
  SpecCanon SpecHash SpecSign SpecVerify SpecEnd SpecDkim SpecTransit SpecAuthor SpecChange.
Import ListNotations.
Open Scope N_scope.

Section WithEnv.
Variable E : Env.

(** What can be wrong with the body [body'], when [body] was signed, in the order in which
    it is noticed. *)
Definition body_checks (config : Config) (sig : DkimSig) (body body' : list byte) : list (Prop * VerificationError) :=
  let alg := c_body (s_canonicalization sig) in
  let hash := alg_hash (s_algorithm sig) in
  match s_body_length sig with
  | None =>
      [(~ (same_body alg body body' \/ collision E hash (canonical_body alg body) (canonical_body alg body')), BodyHashMismatch)]
  | Some l =>
      let first b := firstn (N.to_nat l) (canonical_body alg b) in
      let size := N.of_nat (length (canonical_body alg body')) in
      [(size < l, VInsufficientContent);
       (cf_forbid_unsigned_content config = true /\ l < size, Policy UnsignedContent);
       (~ (first body = first body' \/ collision E hash (first body) (first body')), BodyHashMismatch)]
  end.

(** What can be wrong in all: first the signature itself, as far as it can be seen without a
    key (C42); then the header, unless [text]; and then the body. *)
Definition all_checks (config : Config) (now : N) (sig : DkimSig) (headers' : list HeaderField) (text : Prop) (body body' : list byte)
    : list (Prop * VerificationError) :=
  signature_checks E headers' config now sig
  ++ (~ text, VerificationFailure CryptoVerificationFailure) :: body_checks config sig body body'.

End WithEnv.
