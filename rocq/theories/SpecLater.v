(** Specification: the same message verified again, at another time or with other
    contents of DNS. *)

From Coq Require Import String List Permutation.
From Verif Require Import Base Canon Signature KeyRecord Crypto Verify SpecText SpecCanon SpecHash SpecHeader SpecSig SpecVerify SpecDkim SpecUnique.

Section WithEnv.
Variable E : Env.

(** the times in the signature admit the time of verification *)
Definition timely (config : Config) (now : N) (sig : DkimSig) : Prop :=
  let t0 := seconds config now in
  (cf_allow_expired config = false -> forall x, s_expiration sig = Some x -> t0 < x + cf_time_tolerance config /\ t0 < 2^64 - 1)
  /\ (cf_allow_timestamp_in_future config = false -> forall t, s_timestamp sig = Some t -> t <= t0 + cf_time_tolerance config).

(** a published record has a key that confirms the signature *)
Definition confirmed_in (zone : str -> IoResult (list (IoResult (list byte)))) (config : Config) (headers : list HeaderField)
    (name : str) (value : list byte) (sig : DkimSig) : Prop :=
  exists txt k key data, published E zone sig txt /\ key_for E sig config txt k key /\ signed_text E headers name value sig data
    /\ verifies E key (alg_hash (s_algorithm sig)) (hash_fn (env_crypto E) (alg_hash (s_algorithm sig)) data) (s_signature_data sig).

(** failures on account of time, of the lookup, or of key records *)
Inductive later_failure : VerificationError -> Prop :=
| lf_expired : later_failure (Policy SignatureExpired)
| lf_future : later_failure (Policy TimestampInFuture)
| lf_no_key : later_failure NoKeyFound
| lf_domain : later_failure InvalidKeyDomain
| lf_timeout : later_failure VTimeout
| lf_lookup : later_failure KeyLookup
| lf_record : forall e, later_failure (KeyRecordFormat e)
| lf_type : later_failure WrongKeyType
| lf_revoked : later_failure KeyRevoked
| lf_hash : later_failure DisallowedHashAlgorithm
| lf_mismatch : later_failure VDomainMismatch
| lf_key : forall e, later_failure (VerificationFailure e)
| lf_small : later_failure (Policy KeyTooSmall).

End WithEnv.

(** All that is looked at in one zone is looked at in the other. *)
Definition more_consulted (zone zone' : str -> IoResult (list (IoResult (list byte)))) : Prop :=
  forall n txts, zone n = Ok txts -> exists txts', zone' n = Ok txts' /\ incl (consulted txts) (consulted txts').

(** the same records in another order *)
Definition reordered (zone zone' : str -> IoResult (list (IoResult (list byte)))) : Prop :=
  forall n, match zone n, zone' n with
            | Ok txts, Ok txts' => Permutation txts txts'
            | Err e, Err e' => e = e'
            | _, _ => False
            end.
