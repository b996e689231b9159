(** Property C91: how much canonicalization writes, and when. *)

From Coq Require Import String List NArith.
From Verif Require Import Base Canon SpecCanon CanonProofs Sample SizeProofs.
Import ListNotations.
Open Scope N_scope.

(** C91.  At no time has more been written than has been read ... *)
Theorem C91_while_reading : forall alg chunks out bc,
  canonicalize_chunks (bc_new alg) chunks = Val (out, bc) ->
  (length out <= length (concat chunks))%nat.
Proof. exact written_size. Qed.
Print Assumptions C91_while_reading.

(** ... and with a CRLF more at the end. *)
Theorem C91_at_the_end : forall alg chunks out,
  canonicalize_body alg chunks = Val out -> (length out <= length (concat chunks) + 2)%nat.
Proof. exact body_size. Qed.
Print Assumptions C91_at_the_end.

(** What has been written is the beginning of the canonical form of every body that begins so. *)
Theorem C91_never_taken_back : forall alg chunks out bc more final,
  canonicalize_chunks (bc_new alg) chunks = Val (out, bc) ->
  canonicalize_body alg (chunks ++ more) = Val final ->
  exists rest, final = out ++ rest.
Proof. exact written_stands. Qed.
Print Assumptions C91_never_taken_back.

(** The header part of what is hashed is not larger than the header with two octets more for
    every field, whatever and how often names are repeated in the list. *)
Theorem C91_header : forall alg headers names,
  Forall (fun f => valid_name (fst f)) headers ->
  (length (canonicalize_headers alg headers names)
     <= list_sum (map (fun f => length (fst f) + 1 + length (snd f) + 2) headers))%nat.
Proof.
  intros alg headers names V. etransitivity; [exact (headers_size alg headers names V)|].
  apply Nat.eq_le_incl. f_equal. apply map_ext. intros f. unfold field_size. Lia.lia.
Qed.
Print Assumptions C91_header.

(** What is written for one chunk is not bounded by its size: a single octet after [n] empty
    lines makes [2 * n + 1] octets be written at once. *)
Theorem C91_one_chunk_unbounded : forall n, exists bc out bc',
  canonicalize_chunks (bc_new Simple) [crlfs n] = Val ([], bc)
  /\ canonicalize_chunk bc [97] = Val (out, bc') /\ length out = (2 * n + 1)%nat.
Proof. exact burst. Qed.
Print Assumptions C91_one_chunk_unbounded.

(** bounds that are reached *)
Example C91_example :
  (exists bc, canonicalize_chunks (bc_new Relaxed) [lit "ab"; lit "c"] = Val (lit "abc", bc))
  /\ canonicalize_body Relaxed [lit "ab"; lit "c"] = Val (lit "abc" ++ [13; 10])
  /\ canonicalize_headers Simple [(lit "From", lit " a"); (lit "To", lit " b")] [lit "to"; lit "to"; lit "from"; lit "to"]
     = lit "To: b" ++ [13; 10] ++ lit "From: a" ++ [13; 10].
Proof. split; [eexists; reflexivity|]. split; reflexivity. Qed.
