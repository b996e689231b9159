(** Verified messages, and altering signatures in them. *)

From Coq Require Import String List NArith.
From Verif Require Import Base Utf8 Canon BodyHash TagList Domain Signature KeyRecord Crypto Verify
  SpecText SpecCanon SpecHash SpecHeader SpecTag SpecDomain SpecSig SpecRecord SpecSign SpecOutput SpecVerify SpecEnd SpecDkim SpecRsa SpecEd.
Import ListNotations.
Open Scope N_scope.

(** the public key in a key record *)
Definition rsa_key_of (k : KeyRecord) (n e : N) : Prop :=
  k_key_type k = Rsa /\ (rsa_info_der n e (k_key_data k) \/ rsa_public_der n e (k_key_data k)) /\ rsa_accepted n e.
Definition ed_key_of (k : KeyRecord) (public : list byte) : Prop :=
  k_key_type k = Ed25519 /\ (k_key_data k = public \/ ed_info_der public (k_key_data k)).

(** the text [s'] is [s] with another value of the b= tag *)
Definition b_replaced (s s' : str) : Prop :=
  exists tags tags' v v' t, tags_of s tags /\ tags_of s' tags' /\ get "b" tags = Some v /\ get "b" tags' = Some v'
    /\ signature_removed s v t /\ signature_removed s' v' t.

Section WithEnv.
Variable E : Env.

(** Somebody has verified a message with this header and body, in some way: the field
    [name: value] was found to be a good signature [sig], by key record [k]. *)
Definition verified (headers : list HeaderField) (body : list byte) (name : str) (value : list byte) (sig : DkimSig) (k : KeyRecord) : Prop :=
  exists w zone config chunks rs i r,
    world_ok w /\ steady (w_resolver w) zone /\ header_fields headers /\ body = concat chunks
    /\ verify_message E w headers config chunks = Val (Some rs) /\ result_for config headers rs i name value r
    /\ vr_status r = Success /\ vr_signature r = Some sig /\ vr_key_record r = Some k.

(** what was signed: the fields covered by the signature, and its own field *)
Definition signed_text (headers : list HeaderField) (name : str) (value : list byte) (sig : DkimSig) (data : list byte) : Prop :=
  exists s tags, Forall is_scalar s /\ value = as_bytes s /\ tags_of s tags /\ signature_of (env_pre E) (env_idna E) tags sig
    /\ signed_data headers sig name s tags data.

End WithEnv.
