(** Specification of changes that may happen to a message in transit without
    effect on signatures (RFC 6376 section 3.4). *)

From Coq Require Import List.
From Verif Require Import Base Canon Signature Verify SpecCanon.

(** ** Bodies *)

(** Bodies which differ only in ways that canonicalization disregards: empty lines
    at the end, and for relaxed also the amount of whitespace within lines and
    whitespace at the end of lines. *)
Inductive same_body (alg : CanonAlg) : list byte -> list byte -> Prop :=
| sb_crlf : forall b,
    (alg = Simple -> b <> []) ->                           (* see C02 *)
    (alg = Relaxed -> ends_in_wsp_line b = false) ->       (* see C03 *)
    same_body alg b (b ++ [13; 10])
| sb_blanks : forall a v w c, alg = Relaxed -> v <> [] -> w <> [] ->
    forallb wsp v = true -> forallb wsp w = true -> same_body alg (a ++ v ++ c) (a ++ w ++ c)
| sb_line_end : forall a v c, alg = Relaxed -> forallb wsp v = true ->
    same_body alg (a ++ v ++ [13; 10] ++ c) (a ++ [13; 10] ++ c)
| sb_last : forall b v, alg = Relaxed -> b = [] \/ (exists a, b = a ++ [13; 10]) -> v <> [] -> forallb wsp v = true ->
    same_body alg (b ++ v) (b ++ [13; 10] ++ v)            (* see C03 *)
| sb_refl : forall b, same_body alg b b
| sb_sym : forall b b', same_body alg b b' -> same_body alg b' b
| sb_trans : forall b b' b'', same_body alg b b' -> same_body alg b' b'' -> same_body alg b b''.

(** ** Header fields *)

(** For relaxed, names may differ in case and values in whitespace, including
    line breaks. *)
Definition same_field (alg : CanonAlg) (f f' : HeaderField) : Prop :=
  match alg with
  | Simple => f = f'
  | Relaxed => lower (fst f) = lower (fst f') /\ words (snd f) = words (snd f')
  end.

(** the fields of a name *)
Definition named (n : FieldName) (headers : list HeaderField) : list HeaderField :=
  filter (fun f => same_nameb (fst f) n) headers.

(** Headers have the same fields of the given names, in the same order for each
    name; there may be any other fields, anywhere. *)
Definition same_fields (alg : CanonAlg) (names : list FieldName) (headers headers' : list HeaderField) : Prop :=
  forall n, In n names -> Forall2 (same_field alg) (named n headers) (named n headers').

(** ** Results *)

(** the same result for a field in another position *)
Definition moved (i : nat) (r : VerificationResult) : VerificationResult :=
  mkVResult (vr_status r) i (vr_signature r) (vr_key_record r).
