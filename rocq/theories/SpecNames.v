(** Specification of equality of names. *)

From Coq Require Import List.
From Verif Require Import Base Canon Domain.

(** the same character, or the same ASCII letter in either case *)
Inductive same_letter : char -> char -> Prop :=
| sl_same : forall c, same_letter c c
| sl_upper : forall c, 65 <= c <= 90 -> same_letter c (c + 32)
| sl_lower : forall c, 65 <= c <= 90 -> same_letter (c + 32) c.
Definition same_letters : str -> str -> Prop := Forall2 same_letter.

(** the domain in either case, the local part as written *)
Definition same_identity (a b : Identity) : Prop :=
  id_local_part a = id_local_part b /\ same_letters (id_domain a) (id_domain b).

(** names in either case, values as they are, in the same order *)
Definition same_header : list HeaderField -> list HeaderField -> Prop :=
  Forall2 (fun f g => same_letters (fst f) (fst g) /\ snd f = snd g).
