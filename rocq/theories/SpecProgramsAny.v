(** Specification: what the verification program says of a message from the signing
    program, in whatever form it gets it. *)

From Coq Require Import String List NArith.
From Verif Require Import Base Canon Header Signature Crypto Verify SpecHeader SpecVerify SpecTransit.
Import ListNotations.
Open Scope N_scope.

(** What can be wrong, in the order in which it is noticed; [text]: the header is intact,
    as far as the signature goes; [same]: the body is.  The time does not matter. *)
Definition program_checks (headers headers' : list HeaderField) (text same : Prop) : list (Prop * VerificationError) :=
  [((length (named (lit "From") headers) < length (named (lit "From") headers'))%nat, Policy UnsignedHeaderOccurrence);
   (~ text, VerificationFailure CryptoVerificationFailure);
   (~ same, BodyHashMismatch)].

(** the line with the status *)
Definition status_line (e : option VerificationError) : str :=
  match e with None => lit "    status: Success," | Some _ => lit "    status: Failure(" end.
