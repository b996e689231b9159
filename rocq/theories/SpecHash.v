(** Specification of body hashing (RFC 6376 section 3.7 and the l= tag). *)

From Verif Require Import Base Canon BodyHash SpecCanon.

(** The canonical body, as computed by the code: see C02, C03 for how it relates
    to the RFC. *)
Definition canonical_body (alg : CanonAlg) (body : list byte) : list byte :=
  match alg with
  | Simple => impl_simple_body body
  | Relaxed => impl_relaxed_body body
  end.

(** The hash result due for a registration. *)
Definition expected_result (hash : HashAlg -> list byte -> list byte) (forbid_truncation : bool)
    (key : BodyHasherKey) (body : list byte) : BodyHashResult :=
  let '(limit, alg, canon) := key in
  let cb := canonical_body canon body in
  let size := N.of_nat (length cb) in
  match limit with
  | None => Ok (hash alg cb, size)
  | Some n =>
      if size <? n then Err InsufficientInput
      else if forbid_truncation && (n <? size) then Err InputTruncated
      else Ok (hash alg (firstn (N.to_nat n) cb), n)
  end.

(** Feeding a counting hasher a sequence of inputs; the status of each step. *)
Fixpoint ch_updates (h : CountingHasher) (bs : list (list byte)) : outcome (list HashStatus * CountingHasher) :=
  match bs with
  | [] => Val ([], h)
  | b :: bs' =>
      let! (st, h1) := ch_update h b in
      let! (sts, h2) := ch_updates h1 bs' in
      Val (st :: sts, h2)
  end.

(** A registration needs no more input after prefix [p] if it has a limit and the
    canonicalizer has put out that many bytes (more, if truncation matters). *)
Definition satisfied (fot : bool) (p : list byte) (k : BodyHasherKey) : Prop :=
  let '(limit, alg, canon) := k in
  exists n o bc, limit = Some n /\ canonicalize_chunk (bc_new canon) p = Val (o, bc)
    /\ if fot then n < N.of_nat (length o) else n <= N.of_nat (length o).
