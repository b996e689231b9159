(** Messages verified under a configuration. *)

From Coq Require Import String List NArith.
From Verif Require Import Base Canon Header Signature KeyRecord Crypto Verify
  SpecCanon SpecHash SpecHeader SpecSign SpecOutput SpecVerify SpecEnd SpecDkim SpecTransit.
Import ListNotations.
Open Scope N_scope.

Section WithEnv.
Variable E : Env.

(** Somebody has verified a message with this header and body and configuration: the
    field [name: value] was found to be a good signature [sig], by key record [k]. *)
Definition verified_under (config : Config) (headers : list HeaderField) (body : list byte) (name : str) (value : list byte)
    (sig : DkimSig) (k : KeyRecord) : Prop :=
  exists w zone chunks rs i r,
    world_ok w /\ steady (w_resolver w) zone /\ header_fields headers /\ body = concat chunks
    /\ verify_message E w headers config chunks = Val (Some rs) /\ result_for config headers rs i name value r
    /\ vr_status r = Success /\ vr_signature r = Some sig /\ vr_key_record r = Some k.

(** a name is among these *)
Definition among (n : FieldName) (names : list FieldName) : Prop := exists x, In x names /\ same_name n x.

(** the lowest [k] fields of a name, from the bottom *)
Definition lowest (k : nat) (n : FieldName) (headers : list HeaderField) : list HeaderField := firstn k (named n (rev headers)).

(** no part of the body is left unsigned *)
Definition whole_body (config : Config) (sig : DkimSig) : Prop :=
  cf_forbid_unsigned_content config = true \/ s_body_length sig = None.

End WithEnv.
