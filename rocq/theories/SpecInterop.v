(** Specification of agreement with verifiers that follow RFC 6376 to the letter, as far
    as bodies are concerned. *)

From Coq Require Import String List.
From Verif Require Import Base Canon BodyHash Domain Signature Crypto Verify SpecCanon SpecHash SpecDkim.

Section WithEnv.
Variable E : Env.

(** When the hash in [sig] is right for the body in the form [c1], it is right in the
    form [c2], too.  If the forms differ, then either l= stops before the difference,
    and content not signed is tolerated, or the two forms have the same hash. *)
Definition agrees (c1 c2 : CanonAlg -> list byte -> list byte) (config : Config) (sig : DkimSig) (body : list byte) : Prop :=
  let alg := c_body (s_canonicalization sig) in
  let h := hash_fn (env_crypto E) (alg_hash (s_algorithm sig)) in
  match s_body_length sig with
  | Some l => cf_forbid_unsigned_content config = false
              /\ l <= N.of_nat (length (c1 alg body)) /\ l <= N.of_nat (length (c2 alg body))
  | None => h (c1 alg body) = h (c2 alg body)
  end.

End WithEnv.
