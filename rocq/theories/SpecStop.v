(** Specification: when the rest of the body does not matter. *)

From Coq Require Import List NArith.
From Verif Require Import Base Canon BodyHash Signature KeyRecord Crypto Sign Verify SpecCanon SpecHash SpecVerify.
Import ListNotations.
Open Scope N_scope.

(** After [read], the first [n] bytes of the canonical body are certain: they are the same
    however the body goes on. *)
Definition certain (canon : CanonAlg) (read : list byte) (n : N) : Prop :=
  exists bytes, N.of_nat (length bytes) = n
    /\ forall rest, exists tail, canonical_body canon (read ++ rest) = bytes ++ tail.

Definition ends_in_cr (read : list byte) : Prop := exists q, read = q ++ [13].

(** How many bytes of the canonical body decide on a signature (or a request to sign) with
    length [l]: those covered, and one more to see that there is unsigned content, where
    this is forbidden. *)
Definition deciding (forbid_unsigned_content : bool) (l : N) : N := if forbid_unsigned_content then l + 1 else l.

Section WithEnv.
Variable E : Env.

(** The signature is confirmed by a key record; what remains is the body. *)
Definition key_confirmed (answer : str * str -> IoResult (list (IoResult (list byte)))) (headers : list HeaderField)
    (config : Config) (now : N) (name : str) (value : list byte) (sig : DkimSig) : Prop :=
  exists s p txts r, in_progress E headers config now value s sig /\ lookup_pair E sig p
    /\ answer p = Ok txts /\ records_outcome E headers config sig name s (consulted txts) r None.

(** All confirmed signatures have a length, and the first so many bytes of the canonical body
    ([more] further ones included) are certain. *)
Definition decided (more : N) (answer : str * str -> IoResult (list (IoResult (list byte)))) (headers : list HeaderField)
    (config : Config) (clock : nat -> N) (read : list byte) : Prop :=
  forall i name value sig, In (i, (name, value)) (examined config headers) ->
    key_confirmed answer headers config (clock i) name value sig ->
    exists l, s_body_length sig = Some l
      /\ certain (c_body (s_canonicalization sig)) read (deciding (cf_forbid_unsigned_content config) l + more).

(** The same for requests to sign. *)
Definition requests_decided (more : N) (rs : list (SignRequest E)) (read : list byte) : Prop :=
  forall r, In r rs -> exists l, r_body_length E r = ExactLen l /\ certain (c_body (r_canonicalization E r)) read (l + more).

End WithEnv.
