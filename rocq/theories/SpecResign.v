(** Specification of messages that are the same to a signing request. *)

From Coq Require Import List.
From Verif Require Import Base Canon BodyHash Domain Signature Crypto Format Sign
  SpecCanon SpecHeader SpecFormat SpecSign SpecTransit.

Section WithEnv.
Variable E : Env.

(** The same names are signed, the signed fields differ only in ways that the
    canonicalization of headers disregards, and the same fields, if any, are
    copied to the signature. *)
Definition alike_headers (r : SignRequest E) (headers headers' : list HeaderField) : Prop :=
  exists names copied,
    signed_names E r headers names /\ signed_names E r headers' names
    /\ same_fields (c_header (r_canonicalization E r)) names headers headers'
    /\ copied_headers E r headers names copied /\ copied_headers E r headers' names copied.

(** The bodies differ only in ways that the canonicalization of bodies disregards. *)
Definition alike_body (r : SignRequest E) (body body' : list byte) : Prop :=
  same_body (c_body (r_canonicalization E r)) body body'.

End WithEnv.
