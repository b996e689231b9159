(** Specification of which header fields matter to signing, and of the copies of
    header fields in a signature. *)

From Coq Require Import String List.
From Verif Require Import Base Canon Crypto Format Sign SpecText SpecCanon SpecHeader SpecSign.

Section WithEnv.
Variable E : Env.

(** fields of this name are signed by a request, if there are any *)
Definition signs (r : SignRequest E) (n : FieldName) : Prop :=
  match r_header_selection E r with
  | Auto => In (lower n) signed_by_default
  | Manual names => exists m, In m names /\ same_name n m
  end.

(** fields of this name matter to a signing process *)
Definition of_interest (rs : list (SignRequest E)) (f : HeaderField) : Prop :=
  same_name (fst f) (lit "From") \/ exists r, In r rs /\ signs r (fst f).

End WithEnv.
