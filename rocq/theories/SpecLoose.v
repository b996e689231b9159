(** Specification: configurations that are less strict than others. *)

From Coq Require Import List.
From Verif Require Import Base Canon Header Verify SpecCanon.
Import ListNotations.
Open Scope N_scope.

(** [config'] allows all that [config] allows. *)
Definition looser (config config' : Config) : Prop :=
  (cf_max_signatures config <= cf_max_signatures config')%nat
  /\ (forall n', In n' (cf_headers_required_in_signature config') ->
        exists n, In n (cf_headers_required_in_signature config) /\ same_name n n')
  /\ (forall n', In n' (cf_headers_forbidden_to_be_unsigned config') ->
        exists n, In n (cf_headers_forbidden_to_be_unsigned config) /\ same_name n n')
  /\ cf_min_key_bits config' <= cf_min_key_bits config
  /\ (cf_allow_sha1 config = true -> cf_allow_sha1 config' = true)
  /\ (cf_forbid_unsigned_content config' = true -> cf_forbid_unsigned_content config = true)
  /\ (cf_allow_expired config = true -> cf_allow_expired config' = true)
  /\ (cf_allow_timestamp_in_future config = true -> cf_allow_timestamp_in_future config' = true)
  /\ cf_time_tolerance config <= cf_time_tolerance config'
  /\ cf_fixed_system_time config = cf_fixed_system_time config'.
