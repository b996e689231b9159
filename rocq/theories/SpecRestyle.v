(** Specification of what a signature owes to the time of signing and to the
    format of the header text. *)

From Coq Require Import List.
From Verif Require Import Base BodyHash Domain Signature Crypto Format Sign SpecSign.

Section WithEnv.
Variable E : Env.

(** the same request with another format *)
Definition restyled (r : SignRequest E) (f : OutputFormat) : SignRequest E :=
  mkRequest E (r_signing_key E r) (r_algorithm E r) (r_canonicalization E r) (r_domain E r) (r_header_selection E r)
    (r_identity E r) (r_body_length E r) (r_selector E r) (r_timestamp E r) (r_valid_duration E r) (r_copy_headers E r)
    (r_ext_tags E r) f.

(** the request mentions no time that is not given in it *)
Definition timeless (r : SignRequest E) : Prop :=
  match r_timestamp E r with
  | TsNow => False
  | TsExact _ => True
  | TsNone => r_valid_duration E r = None
  end.

(** the time of expiration, when signed at the time [now] *)
Definition expiration_of (r : SignRequest E) (now : N) : option N :=
  match r_valid_duration E r with
  | None => None
  | Some d =>
      let from := match r_timestamp E r with TsExact t => t | TsNow | TsNone => now end in
      Some (if from + d <? 2^64 then from + d else 2^64 - 1)
  end.

(** the same signature but for the times and the signature proper *)
Definition redone (r : SignRequest E) (now : N) (sig : DkimSig) (data : list byte) : DkimSig :=
  mkSig (s_algorithm sig) data (s_body_hash sig) (s_canonicalization sig) (s_domain sig) (s_signed_headers sig)
    (s_identity sig) (s_body_length sig) (s_selector sig)
    (match r_timestamp E r with TsNow => Some now | TsExact t => Some t | TsNone => None end)
    (expiration_of r now) (s_copied_headers sig) (s_ext_tags sig).

End WithEnv.
