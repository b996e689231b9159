(** Specification of configurations that differ in the number of signatures. *)

From Coq Require Import List.
From Verif Require Import Base Verify.

Definition with_max (n : nat) (config : Config) : Config :=
  mkConfig (cf_lookup_timeout config) n (cf_headers_required_in_signature config)
    (cf_headers_forbidden_to_be_unsigned config) (cf_min_key_bits config) (cf_allow_sha1 config)
    (cf_forbid_unsigned_content config) (cf_allow_expired config) (cf_allow_timestamp_in_future config)
    (cf_time_tolerance config) (cf_fixed_system_time config).

(** the results with a limit, when without one they are [rs] *)
Definition limited (n : nat) (rs : option (list VerificationResult)) : option (list VerificationResult) :=
  match n, rs with
  | O, _ | _, None => None
  | _, Some rs => Some (firstn n rs)
  end.
