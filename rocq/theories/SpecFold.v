(** Specification of changes to the whitespace in a signature's own header field. *)

From Coq Require Import List.
From Verif Require Import Base Utf8 Signature SpecText SpecCanon.
Import ListNotations.
Open Scope N_scope.

Definition starts_black (s : str) : Prop := match s with [] => True | c :: _ => white c = false end.

(** Each stretch of whitespace is replaced with another. *)
Inductive refolded : str -> str -> Prop :=
| rf_nil : refolded [] []
| rf_char : forall c s s', white c = false -> refolded s s' -> refolded (c :: s) (c :: s')
| rf_fws : forall f f' s s', fws f -> fws f' -> starts_black s -> refolded s s' -> refolded (f ++ s) (f' ++ s').

(** Whitespace at the start may also be added or removed. *)
Definition same_folding (s s' : str) : Prop :=
  exists f f' t t', ofws f /\ ofws f' /\ starts_black t /\ refolded t t' /\ s = f ++ t /\ s' = f' ++ t'.

(** uninterpreted tags *)
Definition same_tag (t t' : str * str) : Prop := fst t = fst t' /\ refolded (snd t) (snd t').

Definition with_ext_tags (ext : list (str * str)) (sig : DkimSig) : DkimSig :=
  mkSig (s_algorithm sig) (s_signature_data sig) (s_body_hash sig) (s_canonicalization sig) (s_domain sig)
    (s_signed_headers sig) (s_identity sig) (s_body_length sig) (s_selector sig) (s_timestamp sig)
    (s_expiration sig) (s_copied_headers sig) ext.
